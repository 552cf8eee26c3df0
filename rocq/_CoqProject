-Q theories Verif
theories/Base.v
theories/Arith.v
theories/Model_Column.v
theories/Spec_Column.v
theories/Proofs_Base.v
theories/Proofs_Column.v
theories/Proofs_ColumnR.v
theories/Proofs_FP.v
theories/Proofs_ColumnA.v
theories/Proofs_ColumnP.v
theories/Props_Column.v
theories/Model_Time.v
theories/Spec_Time.v
theories/Proofs_Time.v
theories/Proofs_TimeFP.v
theories/Props_Time.v
theories/Model_Geo.v
theories/Spec_Geo.v
theories/Proofs_Geo.v
theories/Props_Geo.v
theories/Model_Interp.v
theories/Model_Crater.v
theories/Model_Grid.v
theories/Proofs_Interp.v
theories/Proofs_Crater.v
theories/Proofs_Scaling.v
theories/Props_Crater.v
theories/Model_Ice.v
theories/Model_Rng.v
theories/Spec_Ice.v
theories/Proofs_Ice.v
theories/Proofs_Rng.v
theories/Proofs_Stream.v
theories/Proofs_Neukum.v
theories/Props_Ice.v
theories/Props_Rng.v
theories/Model_Strat.v
theories/Spec_Strat.v
theories/Proofs_Strat.v
theories/Proofs_Labels.v
theories/Props_Strat.v
theories/Model_Melt.v
theories/Spec_Melt.v
theories/Proofs_Melt.v
theories/Proofs_Bsed.v
theories/Props_Melt.v
theories/Model_Save.v
theories/Spec_Save.v
theories/Proofs_Save.v
theories/Props_Save.v
theories/Model_Main.v
theories/Spec_Main.v
theories/Proofs_Main.v
theories/Props_Main.v
theories/Proofs_Whole.v
theories/Props_Whole.v
theories/Model_Path.v
theories/Model_Cfg.v
theories/Spec_Cfg.v
theories/Proofs_Path.v
theories/Proofs_Cfg.v
theories/Proofs_Rebuild.v
theories/Proofs_Default.v
theories/Props_Cfg.v
theories/Model_Cache.v
theories/Spec_Cache.v
theories/Proofs_Cache.v
theories/Props_Cache.v
theories/Model_Thermal.v
theories/Spec_Thermal.v
theories/Proofs_Thermal.v
theories/Proofs_Pool.v
theories/Props_Thermal.v
theories/Model_Plot.v
theories/Spec_Plot.v
theories/Proofs_Plot.v
theories/Proofs_Ranges.v
theories/Proofs_Agg.v
theories/Props_Plot.v
theories/Spec_Grid.v
theories/Proofs_Grid.v
theories/Props_Grid.v
theories/Model_Figure.v
theories/Spec_Figure.v
theories/Proofs_Figure.v
theories/Proofs_Cmap.v
theories/Props_Figure.v
theories/Spec_Mono.v
theories/Proofs_Mono.v
theories/Props_Mono.v
theories/Spec_Wet.v
theories/Proofs_Wet.v
theories/Props_Wet.v
theories/Model_Csv.v
theories/Data_Shipped.v
theories/Model_Run.v
theories/Spec_Run.v
theories/Proofs_Run.v
theories/Proofs_Shipped.v
theories/Props_Run.v
theories/Spec_Csv.v
theories/Proofs_Csv.v
theories/Proofs_Read.v
theories/Props_Csv.v
theories/Spec_Options.v
theories/Proofs_Options.v
theories/Props_Options.v
theories/Model_Outputs.v
theories/Spec_Outputs.v
theories/Proofs_Outputs.v
theories/Props_Outputs.v
theories/Model_Files.v
theories/Spec_Files.v
theories/Proofs_Files.v
theories/Props_Files.v
theories/Model_Cmd.v
theories/Spec_Cmd.v
theories/Proofs_Cmd.v
theories/Props_Cmd.v
theories/Model_Collect.v
theories/Spec_Collect.v
theories/Proofs_Collect.v
theories/Proofs_Day.v
theories/Props_Collect.v
theories/Model_Module.v
theories/Spec_Module.v
theories/Proofs_Module.v
theories/Props_Module.v
theories/Model_Shown.v
theories/Spec_Shown.v
theories/Proofs_Shown.v
theories/Props_Shown.v
theories/Model_Cumulative.v
theories/Spec_Cumulative.v
theories/Proofs_Cumulative.v
theories/Props_Cumulative.v
theories/Model_Basin.v
theories/Spec_Basin.v
theories/Proofs_Basin.v
theories/Props_Basin.v
theories/Model_Ages.v
theories/Spec_Ages.v
theories/Proofs_Ages.v
theories/Props_Ages.v
theories/Model_Curves.v
theories/Proofs_Curves.v
theories/Props_Curves.v
theories/Model_Maps.v
theories/Spec_Maps.v
theories/Proofs_Maps.v
theories/Props_Maps.v
theories/Model_Laws.v
theories/Spec_Laws.v
theories/Proofs_Laws.v
theories/Props_Laws.v
theories/Model_Text.v
theories/Spec_Text.v
theories/Proofs_Text.v
theories/Props_Text.v
theories/Model_Volatile.v
theories/Spec_Volatile.v
theories/Proofs_Volatile.v
theories/Props_Volatile.v
theories/Model_Columns.v
theories/Spec_Columns.v
theories/Proofs_Columns.v
theories/Props_Columns.v
theories/Spec_Hatch.v
theories/Props_Hatch.v
theories/Model_Speeds.v
theories/Spec_Speeds.v
theories/Proofs_Speeds.v
theories/Props_Speeds.v
theories/Model_All.v
theories/Spec_All.v
theories/Proofs_All.v
theories/Props_All.v
theories/Props_Order.v
theories/Model_Heat.v
theories/Props_Heat.v
theories/Model_Script.v
theories/Props_Script.v
theories/Model_Args.v
theories/Props_Args.v
