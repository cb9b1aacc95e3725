-Q theories Verif
theories/M_Num.v
theories/M_Base.v
theories/M_Particle.v
theories/M_Config.v
theories/M_Env.v
theories/M_Grid.v
theories/M_Computer.v
theories/M_Main.v
theories/M_Csv.v
theories/M_NumR.v
theories/M_NumF.v
theories/P_Loop.v
theories/P_Indep.v
theories/P_Grid.v
theories/P_Search.v
theories/P_Phase.v
theories/S_Reach.v
theories/P_Step.v
theories/P_Reach.v
theories/P_Point.v
theories/P_Life.v
theories/T_Life.v
theories/S_Real.v
theories/P_Real.v
theories/P_AccR.v
theories/P_Exact.v
theories/S_Grid.v
theories/T_Grid.v
theories/P_Neigh.v
theories/T_Search.v
theories/S_Lattice.v
theories/P_Lattice.v
theories/T_Env.v
theories/T_Density.v
theories/T_Speed.v
theories/P_Force.v
theories/T_Force.v
theories/T_Dummy.v
theories/P_Cg.v
theories/S_Ppe.v
theories/S_Terms.v
theories/P_Ppe.v
theories/T_Ppe.v
theories/T_Solve.v
theories/T_Grad.v
theories/T_Stab.v
theories/S_Csv.v
theories/S_Dummy.v
theories/T_Csv.v
theories/S_Main.v
theories/T_Main.v
theories/M_Par.v
theories/P_Par.v
theories/T_Par.v
theories/S_Par.v
theories/T_Store.v
theories/S_Outcome.v
theories/T_Binary64.v
theories/T_Unit.v
theories/S_Sim.v
theories/P_Sim.v
theories/S_Shift.v
theories/T_Shift.v
theories/S_Scale.v
theories/P_Scale.v
theories/T_Scale.v
theories/S_Tight.v
theories/T_Tight.v
theories/T_Outcome.v
theories/S_Rest.v
theories/S_Scheme.v
theories/T_Rest.v
theories/S_Obs.v
theories/T_Obs.v
theories/E_Real.v
theories/T_Scheme.v
theories/T_Step.v
theories/E_Rest.v
theories/E_Scheme.v
theories/S_Alone.v
theories/T_Alone.v
theories/E_Alone.v
theories/S_Sym.v
theories/P_Sym.v
theories/T_Sym.v
theories/E_Sym.v
theories/M_App.v
theories/S_App.v
theories/T_App.v
theories/T_Files.v
theories/E_App.v
theories/E_Scene.v
theories/E_Plus.v
theories/E_Plus2.v
theories/E_Overlap.v
theories/E_Scale.v
theories/V_Tests.v
theories/E_Grid.v
theories/S_Phys.v
theories/T_Phys.v
theories/E_Phys.v
theories/T_Viscous64.v
theories/P_Conv.v
theories/S_Walls.v
theories/T_Walls.v
theories/T_Restart.v
theories/E_Restart.v
theories/M_NumB.v
theories/P_B64.v
theories/S_Float.v
theories/T_Float.v
theories/T_FloatSearch.v
theories/E_Float.v
theories/M_Text.v
theories/S_Text.v
theories/P_Text.v
theories/T_Text.v
theories/E_Text.v
theories/S_Frame.v
theories/T_Frame.v
theories/M_Bench.v
theories/S_Bench.v
theories/P_Bench.v
theories/P_Surf.v
theories/T_Bench.v
theories/E_Bench.v
theories/M_Script.v
theories/S_Script.v
theories/T_Script.v
theories/E_Script.v
theories/S_Mirror.v
theories/T_Mirror.v
theories/E_Mirror.v
theories/S_Central.v
theories/P_Central.v
theories/T_Central.v
theories/E_Central.v
theories/M_Red.v
theories/S_Red.v
theories/P_Red.v
theories/T_Red.v
theories/E_Red.v
theories/M_Post.v
theories/S_Post.v
theories/T_Post.v
theories/T_Surface.v
theories/S_Gauge.v
theories/T_Axis.v
theories/E_Axis.v
theories/T_Gauge.v
theories/E_Gauge.v
theories/E_Post.v
theories/T_Params.v
theories/E_Params.v
theories/T_Hex.v
theories/S_Max.v
theories/T_Max.v
theories/T_MaxStep.v
theories/E_Max.v
theories/S_Cells.v
theories/T_Cells.v
theories/T_CellScene.v
theories/E_Cells.v
theories/M_Xml.v
theories/S_Xml.v
theories/P_Xml.v
theories/T_Xml.v
theories/T_XmlScript.v
theories/E_Xml.v
theories/M_Console.v
theories/S_Console.v
theories/T_Console.v
theories/E_Console.v
theories/M_Disk.v
theories/T_Disk.v
theories/E_Disk.v
theories/M_Log.v
theories/S_Log.v
theories/T_Log.v
theories/E_Log.v
theories/T_Cut.v
theories/S_Blind.v
theories/T_Blind.v
theories/T_Density0.v
theories/T_CutRun.v
theories/E_Blind.v
theories/M_Fault.v
theories/T_Fault.v
theories/E_Fault.v
theories/M_Start.v
theories/T_Start.v
theories/E_Start.v
