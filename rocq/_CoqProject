-Q theories Verif
theories/Base.v
theories/ChainModel.v
theories/ChainProofs.v
theories/ChainProofs2.v
theories/EmbModel.v
theories/Spec.v
theories/SpecEmb.v
theories/EmbProofs.v
theories/EmbProofs2.v
theories/EmbProofs3.v
theories/EmbProofs4.v
theories/EmbProofs5.v
theories/EmbOps.v
theories/EmbProofs6.v
theories/EmbProofs7.v
theories/EmbProofs8.v
theories/EmbProofs9.v
theories/QueueModel.v
theories/PathModel.v
theories/QueueProofs.v
theories/QueueMem.v
theories/SpecQueue.v
theories/QueueMemProofs.v
theories/Wp.v
theories/SpecPath.v
theories/DijkProofs.v
theories/PrepProofs.v
theories/RunProofs1.v
theories/PathProofs.v
theories/PathProofs2.v
theories/RunProofs2.v
theories/OrderProofs.v
theories/RunProofs3.v
theories/QuickProofs.v
theories/RunProofs4.v
theories/RunProofs5.v
theories/GraphModel.v
theories/SpecGraph.v
theories/GraphProofs.v
theories/GraphProofs2.v
theories/ParamModel.v
theories/ParamProofs.v
theories/ParamProofs2.v
theories/SpecTop.v
theories/TopProofs.v
theories/TopProofs2.v
theories/TopProofs3.v
theories/ParamProofs3.v
theories/SpecImprove.v
theories/ImproveProofs.v
theories/ConcModel.v
theories/SpecConc.v
theories/ConcProofs1.v
theories/ConcProofs2.v
theories/ConcProofs3.v
theories/ConcProofs4.v
theories/ConcProofs5.v
theories/P_emb.v
theories/P_run.v
theories/P_graph.v
theories/P_path.v
theories/P_conc.v
theories/BusModel.v
theories/CliqueModel.v
theories/SpecBus.v
theories/CoordProofs.v
theories/BitProofs.v
theories/BundleProofs.v
theories/MaskProofs.v
theories/MaskProofs2.v
theories/TopoProofs.v
theories/BusTop.v
theories/CliqueProofs1.v
theories/P_bus.v
theories/CliqueProofs2.v
theories/CliqueProofs3.v
theories/CliqueProofs4.v
theories/CliqueProofs5.v
theories/CliqueProofs6.v
theories/CliqueProofs7.v
theories/SmallModel.v
theories/SmallProofs.v
theories/CliqueTop.v
theories/P_clique.v
theories/BicliqueModel.v
theories/BicliqueProofs1.v
theories/BicliqueProofs2.v
theories/BicliqueProofs3.v
theories/BicliqueProofs4.v
theories/BicliqueTop.v
theories/P_biclique.v
theories/RngModel.v
theories/RngProofs.v
theories/P_rng.v
theories/PyCacheModel.v
theories/SpecCache.v
theories/PyCacheProofs1.v
theories/PyCacheProofs2.v
theories/PyCacheProofs3.v
theories/PyCacheProofs4.v
theories/PyCacheTop.v
theories/P_pycache.v
theories/DiskModel.v
theories/SpecDisk.v
theories/DiskProofs.v
theories/DiskProofs2.v
theories/P_disk.v
theories/PyModel.v
theories/SpecUtil.v
theories/SpecPy.v
theories/PyProofs1.v
theories/PyProofs2.v
theories/PyProofs3.v
theories/P_py.v
theories/SerialModel.v
theories/SpecSerial.v
theories/SerialProofs.v
theories/SerialProofs2.v
theories/P_serial.v
theories/MinerModel.v
theories/SpecMiner.v
theories/MinerProofs.v
theories/MinerProofs2.v
theories/MinerProofs3.v
theories/P_quick.v
theories/RestrictProofs.v
theories/P_restrict.v
theories/NxModel.v
theories/SpecNx.v
theories/DiagProofs.v
theories/P_diag.v
theories/FeasModel.v
theories/SpecFeas.v
theories/FeasProofs1.v
theories/FeasProofs2.v
theories/FeasProofs3.v
theories/FeasProofs4.v
theories/P_feas.v
theories/ParModel.v
theories/SpecPar.v
theories/ParProofs.v
theories/ParProofs2.v
theories/ParProofs3.v
theories/P_par.v
theories/FragModel.v
theories/SpecFrag.v
theories/FragProofs1.v
theories/FragProofs2.v
theories/FragProofs3.v
theories/FragProofs4.v
theories/FragProofs5.v
theories/FragTop.v
theories/P_frag.v
theories/FragBicliqueModel.v
theories/FragBiclique.v
theories/P_fragbi.v
theories/UtilModel.v
theories/UtilProofs.v
theories/P_util.v
theories/LayoutModel.v
theories/SpecLayout.v
theories/LayoutProofs1.v
theories/LayoutProofs2.v
theories/LayoutProofs3.v
theories/LayoutProofs4.v
theories/LayoutTop.v
theories/P_layout.v
theories/PolyModel.v
theories/SpecPoly.v
theories/PolyProofs1.v
theories/PolyProofs2.v
theories/PolyProofs3.v
theories/PolyProofs4.v
theories/PolyProofs5.v
theories/PolyProofs6.v
theories/PolyProofs7.v
theories/PolyProofs8.v
theories/PolyProofs9.v
theories/P_poly.v
theories/DrawModel.v
theories/SpecDraw.v
theories/DrawProofs1.v
theories/DrawProofs2.v
theories/DrawProofs3.v
theories/DrawProofs4.v
theories/P_draw.v
theories/LayoutGenModel.v
theories/SpecLayoutGen.v
theories/LayoutGenProofs.v
theories/LayoutGenProofs2.v
theories/P_layoutgen.v
theories/PnormModel.v
theories/SpecPnorm.v
theories/PnormProofs.v
theories/PnormProofs2.v
theories/P_pnorm.v
theories/RpackModel.v
theories/SpecRpack.v
theories/RpackProofs.v
theories/RpackProofs2.v
theories/P_rpack.v
theories/GridModel.v
theories/GridProofs.v
theories/GridProofs2.v
theories/P_grid.v
theories/PackModel.v
theories/PackProofs.v
theories/P_pack.v
