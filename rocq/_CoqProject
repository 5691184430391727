-Q theories Verif
theories/Base.v
theories/L_Alike.v
theories/L_Arrays.v
theories/L_CatBoost.v
theories/L_Catalogue.v
theories/L_Catalogue2.v
theories/L_Catalogue3.v
theories/L_Correlation.v
theories/L_Correlation2.v
theories/L_Correlation3.v
theories/L_Cut.v
theories/L_Cut2.v
theories/L_Cut3.v
theories/L_Cut4.v
theories/L_CutLgbm.v
theories/L_CutModel.v
theories/L_CutModel2.v
theories/L_CutModel3.v
theories/L_CutModel4.v
theories/L_Dataset.v
theories/L_Dataset2.v
theories/L_Dataset3.v
theories/L_Dot.v
theories/L_Dot2.v
theories/L_Dot3.v
theories/L_Dot4.v
theories/L_Doubles.v
theories/L_Doubles2.v
theories/L_Dump.v
theories/L_Dump2.v
theories/L_Effectiveness.v
theories/L_Effectiveness2.v
theories/L_Effectiveness3.v
theories/L_Effectiveness4.v
theories/L_Effectiveness5.v
theories/L_Effectiveness6.v
theories/L_Effectiveness7.v
theories/L_Effectiveness8.v
theories/L_Effectiveness9.v
theories/L_Ensemble.v
theories/L_Ensemble2.v
theories/L_Ensemble3.v
theories/L_Export.v
theories/L_Feature.v
theories/L_Feature2.v
theories/L_Feature3.v
theories/L_Feature4.v
theories/L_Feature5.v
theories/L_Feature6.v
theories/L_FeatureMetric.v
theories/L_FeatureMetric2.v
theories/L_FeatureMetric3.v
theories/L_FeatureMetric4.v
theories/L_FeatureMetric5.v
theories/L_Fetcher.v
theories/L_Fetcher2.v
theories/L_Fetcher3.v
theories/L_Fetcher4.v
theories/L_Fetcher5.v
theories/L_Files.v
theories/L_Fixed.v
theories/L_Float.v
theories/L_Float2.v
theories/L_Graphviz.v
theories/L_Graphviz2.v
theories/L_Graphviz3.v
theories/L_Heap.v
theories/L_Heap2.v
theories/L_Heap3.v
theories/L_Heap4.v
theories/L_IEEE.v
theories/L_IEEE2.v
theories/L_IEEE3.v
theories/L_IEEE4.v
theories/L_IEEE5.v
theories/L_Jforests.v
theories/L_Lgbm.v
theories/L_Loaders.v
theories/L_MetricError.v
theories/L_MetricError2.v
theories/L_MetricError3.v
theories/L_MetricError4.v
theories/L_MetricError5.v
theories/L_MetricError6.v
theories/L_MetricError7.v
theories/L_MetricEval.v
theories/L_MetricObjects.v
theories/L_MetricObjects2.v
theories/L_MetricObjects3.v
theories/L_Metrics.v
theories/L_MetricsR.v
theories/L_MetricsR2.v
theories/L_Missing.v
theories/L_NDCG.v
theories/L_Names.v
theories/L_NanLabels.v
theories/L_NanScores.v
theories/L_Nul.v
theories/L_Parallel.v
theories/L_Pipeline.v
theories/L_Pipeline2.v
theories/L_PlotEffectiveness.v
theories/L_PlotEffectiveness2.v
theories/L_PlotFeature.v
theories/L_PlotShape.v
theories/L_PrecisionMax.v
theories/L_Query.v
theories/L_QuickRank.v
theories/L_Reshape.v
theories/L_Round.v
theories/L_Rounding.v
theories/L_Rounding2.v
theories/L_Rounding3.v
theories/L_Schedule.v
theories/L_Schedule2.v
theories/L_Schedule3.v
theories/L_Sizes.v
theories/L_Sizes2.v
theories/L_Sizes3.v
theories/L_Statistical.v
theories/L_Statistical2.v
theories/L_Statistical3.v
theories/L_Statistical4.v
theories/L_Svmlight.v
theories/L_Svmlight2.v
theories/L_Svmlight3.v
theories/L_Svmlight4.v
theories/L_Text.v
theories/L_Topology.v
theories/L_Topology2.v
theories/L_Topology3.v
theories/L_Twins.v
theories/L_Twins2.v
theories/L_Twins3.v
theories/L_Twins4.v
theories/L_Xml.v
theories/L_Xml2.v
theories/L_Xml3.v
theories/L_Xml4.v
theories/L_Xml5.v
theories/Lists.v
theories/M_Catalogue.v
theories/M_Correlation.v
theories/M_Dataset.v
theories/M_Dot.v
theories/M_Effectiveness.v
theories/M_Ensemble.v
theories/M_Feature.v
theories/M_FeatureMetric.v
theories/M_Fetcher.v
theories/M_Files.v
theories/M_Float.v
theories/M_Graphviz.v
theories/M_Heap.v
theories/M_IEEE.v
theories/M_Loaders.v
theories/M_MetricObjects.v
theories/M_MetricSums.v
theories/M_Metrics.v
theories/M_NDCG.v
theories/M_Names.v
theories/M_Parallel.v
theories/M_PlotEffectiveness.v
theories/M_PlotFeature.v
theories/M_PlotShape.v
theories/M_Schedule.v
theories/M_Sizes.v
theories/M_Statistical.v
theories/M_Svmlight.v
theories/M_Text.v
theories/M_TextLoaders.v
theories/M_Topology.v
theories/M_Xml.v
theories/Num.v
theories/P_Catalogue.v
theories/P_Correlation.v
theories/P_Cut.v
theories/P_CutLgbm.v
theories/P_CutModel.v
theories/P_Dataset.v
theories/P_Dot.v
theories/P_Doubles.v
theories/P_Effectiveness.v
theories/P_Ensemble.v
theories/P_Feature.v
theories/P_FeatureMetric.v
theories/P_Fetcher.v
theories/P_Files.v
theories/P_Graphviz.v
theories/P_Heap.v
theories/P_IEEE.v
theories/P_Loaders.v
theories/P_MetricError.v
theories/P_MetricObjects.v
theories/P_Metrics.v
theories/P_Missing.v
theories/P_Names.v
theories/P_NanScores.v
theories/P_Nul.v
theories/P_Pipeline.v
theories/P_PlotEffectiveness.v
theories/P_PlotFeature.v
theories/P_PlotShape.v
theories/P_PrecisionMax.v
theories/P_Rounding.v
theories/P_Schedule.v
theories/P_Sizes.v
theories/P_Statistical.v
theories/P_Svmlight.v
theories/P_Topology.v
theories/P_Twins.v
theories/P_Xml.v
theories/S_Catalogue.v
theories/S_Correlation.v
theories/S_Cut.v
theories/S_CutLgbm.v
theories/S_CutModel.v
theories/S_Dataset.v
theories/S_Dot.v
theories/S_Doubles.v
theories/S_Doubles2.v
theories/S_Effectiveness.v
theories/S_Ensemble.v
theories/S_Feature.v
theories/S_FeatureMetric.v
theories/S_Fetcher.v
theories/S_Files.v
theories/S_Graphviz.v
theories/S_Heap.v
theories/S_IEEE.v
theories/S_IEEE2.v
theories/S_Loaders.v
theories/S_MetricError.v
theories/S_MetricObjects.v
theories/S_Metrics.v
theories/S_Missing.v
theories/S_NDCG.v
theories/S_Names.v
theories/S_NanScores.v
theories/S_Nul.v
theories/S_Pipeline.v
theories/S_PlotEffectiveness.v
theories/S_PlotFeature.v
theories/S_PlotShape.v
theories/S_Rounding.v
theories/S_Schedule.v
theories/S_Sizes.v
theories/S_Statistical.v
theories/S_Svmlight.v
theories/S_Topology.v
theories/S_Twins.v
theories/S_Xml.v
theories/T_Loaders.v
theories/T_Svmlight.v
