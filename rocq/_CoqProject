-Q theories Verif
theories/M_Topology.v
theories/S_Topology.v
theories/L_Topology.v
theories/P_Topology.v
theories/M_Halo.v
theories/S_Halo.v
theories/L_Halo1.v
theories/L_Halo2.v
theories/L_Halo3.v
theories/L_Halo3b.v
theories/L_Halo4.v
theories/L_Halo5.v
theories/L_Halo6.v
theories/P_Halo.v
theories/M_Mpi.v
theories/L_Mpi1.v
theories/L_Mpi2.v
theories/P_Mpi.v
theories/M_Grid.v
theories/S_Grid.v
theories/L_Grid1.v
theories/L_Grid2.v
theories/L_Grid3.v
theories/L_Grid4.v
theories/P_Grid.v
theories/S_Sum.v
theories/L_Sum.v
theories/M_Metrics.v
theories/S_Metrics.v
theories/L_Vec.v
theories/P_Metrics.v
theories/M_Flux.v
theories/S_Flux.v
theories/L_Flux1.v
theories/L_Flux2.v
theories/P_Flux.v
theories/M_FluxKernels.v
theories/S_FluxKernels.v
theories/S_Interface.v
theories/L_FluxK1.v
theories/L_FluxK2.v
theories/L_Interface1.v
theories/L_Interface2.v
theories/P_FluxKernels.v
theories/P_FreeStream.v
theories/P_FluxSym.v
theories/P_FluxMore.v
theories/M_Control.v
theories/S_Control.v
theories/P_Control.v
theories/M_Thermo.v
theories/S_Thermo.v
theories/L_Thermo.v
theories/P_Thermo.v
theories/P_Tpg.v
theories/S_Cubic.v
theories/P_Cubic.v
theories/M_Time.v
theories/S_Time.v
theories/P_Time.v
theories/P_Time2.v
theories/P_Time3.v
theories/M_Dual.v
theories/S_Dual.v
theories/L_Dual.v
theories/P_Dual.v
theories/M_Bc.v
theories/S_Bc.v
theories/L_Bc.v
theories/P_Bc.v
theories/P_Wall.v
theories/P_Bc2.v
theories/M_Config.v
theories/S_Config.v
theories/M_Subgrid.v
theories/P_Config.v
theories/P_Config2.v
theories/M_Procs.v
theories/S_Procs.v
theories/L_Procs.v
theories/P_Procs.v
theories/P_Procs2.v
theories/M_Io.v
theories/S_Io.v
theories/L_Io.v
theories/P_Io.v
theories/L_Io2.v
theories/P_Io2.v
theories/P_Io3.v
theories/M_Chem.v
theories/M_Chem_FFCMY.v
theories/M_Chem_Skeletal.v
theories/M_Chem_GRI30.v
theories/S_Chem.v
theories/L_Chem.v
theories/P_Chem.v
theories/P_Chem2.v
theories/P_Chem3.v
theories/M_Diff.v
theories/S_Diff.v
theories/L_Diff.v
theories/P_Diff.v
theories/P_Diff2.v
theories/P_Diff3.v
theories/M_Transport.v
theories/S_Transport.v
theories/L_Transport.v
theories/P_Transport.v
theories/P_Transport2.v
theories/P_Subgrid.v
theories/M_Cut.v
theories/S_Cut.v
theories/L_Cut.v
theories/L_Cut2.v
theories/P_Cut.v
theories/P_CutPath.v
theories/M_Sector.v
theories/S_Sector.v
theories/L_Sector.v
theories/P_Sector.v
theories/P_SectorGeo.v
theories/M_Verify.v
theories/S_Verify.v
theories/L_Verify.v
theories/P_Verify.v
theories/M_Run.v
theories/S_Run.v
theories/L_Run.v
theories/P_Run.v
theories/P_RunDir.v
theories/M_Interp.v
theories/S_Interp.v
theories/P_Interp.v
theories/P_Interp2.v
theories/M_ReadBcs.v
theories/S_ReadBcs.v
theories/P_ReadBcs.v
theories/M_Unify.v
theories/S_Unify.v
theories/L_Unify.v
theories/L_Unify2.v
theories/L_Unify3.v
theories/L_Unify4.v
theories/P_Unify.v
theories/S_Interface2.v
theories/L_Interface3.v
theories/M_Rhs.v
theories/P_Hybrid.v
theories/L_RhsEnd.v
theories/P_RhsEnd.v
theories/M_Ct2pg.v
theories/S_Ct2pg.v
theories/L_Ct2pg.v
theories/P_Ct2pg.v
theories/M_Trace.v
theories/S_Trace.v
theories/P_Trace.v
theories/M_BlGrid.v
theories/S_BlGrid.v
theories/L_BlGrid.v
theories/P_BlGrid.v
theories/M_Transport3.v
theories/S_Chung.v
theories/P_Transport3.v
theories/M_Species.v
theories/S_Species.v
theories/P_Species.v
theories/M_GridPro.v
theories/S_GridPro.v
theories/P_GridPro.v
theories/M_Icem.v
theories/S_Icem.v
theories/P_Icem.v
theories/M_Analyze.v
theories/S_Analyze.v
theories/P_Analyze.v
theories/M_ConfigWrite.v
theories/P_ConfigWrite.v
theories/M_CutGrid.v
theories/S_CutGrid.v
theories/L_CutGrid1.v
theories/L_CutGrid2.v
theories/L_CutGrid3.v
theories/L_CutGrid4.v
theories/L_CutGrid5.v
theories/P_CutGrid.v
theories/M_Red22.v
theories/M_Red22_Tables.v
theories/S_Red22.v
theories/L_Elim.v
theories/L_Red22a.v
theories/L_Red22b.v
theories/L_Red22c.v
theories/L_Red22d.v
theories/L_Red22e.v
theories/L_Red22f.v
theories/P_Red22.v
theories/M_Pseudo.v
theories/S_Pseudo.v
theories/P_Pseudo.v
theories/S_FileNames.v
theories/P_FileNames.v
theories/S_WallVisc.v
theories/P_WallVisc.v
theories/L_LnTen.v
theories/S_Red22Thermo.v
theories/P_Red22Thermo.v
theories/M_KtFit.v
theories/S_KtFit.v
theories/L_KtFit.v
theories/P_KtFit.v
theories/M_Hull.v
theories/S_Hull.v
theories/P_Hull.v
theories/S_Muscl.v
theories/P_Muscl.v
theories/S_Order4.v
theories/P_Order4.v
theories/M_Prep.v
theories/S_Prep.v
theories/P_Prep.v
theories/M_Catalyst.v
theories/S_Catalyst.v
theories/P_Catalyst.v
theories/M_SpLib.v
theories/S_SpLib.v
theories/P_SpLib.v
theories/S_Order2.v
theories/L_Order2.v
theories/P_Order2.v
theories/S_Upwind.v
theories/P_Upwind.v
theories/S_Gradient.v
theories/P_Gradient.v
theories/M_Residual.v
theories/S_Residual.v
theories/P_Residual.v
theories/M_DiffBlock.v
theories/S_Heat.v
theories/P_Heat.v
theories/S_Stability.v
theories/P_Stability.v
theories/M_Arbitrary.v
theories/S_Arbitrary.v
theories/L_Arbitrary.v
theories/L_Arbitrary2.v
theories/P_Arbitrary.v
theories/P_Arbitrary2.v
theories/M_GridLoc.v
theories/S_GridLoc.v
theories/P_GridLoc.v
theories/M_Restarted.v
theories/S_Restarted.v
theories/L_Restarted.v
theories/L_Restarted2.v
theories/P_Restarted.v
theories/P_Restarted2.v
theories/S_Restarted2.v
theories/P_Restarted3.v
theories/S_Uniform.v
theories/L_Uniform.v
theories/P_Uniform.v
theories/P_Uniform2.v
