-Q theories Verif
theories/Base/Bytes.v
theories/Base/Convert.v
theories/Base/IEEE.v
theories/Base/IEEEFacts.v
theories/Base/IEEER.v
theories/Base/Num.v
theories/Base/Res.v
theories/Base/ResFacts.v
theories/Base/Stride.v
theories/Spec/Binning.v
theories/Spec/BufferKinds.v
theories/Spec/Catalogs.v
theories/Spec/Cubic.v
theories/Spec/Deposits.v
theories/Spec/EvalMany.v
theories/Spec/FieldDefs.v
theories/Spec/Fields.v
theories/Spec/Files.v
theories/Spec/Filtering.v
theories/Spec/GadgetEx.v
theories/Spec/GadgetImages.v
theories/Spec/GadgetRuns.v
theories/Spec/Gadgets.v
theories/Spec/Generators.v
theories/Spec/GeomDefs.v
theories/Spec/Geometry.v
theories/Spec/HaloDefs.v
theories/Spec/Halos.v
theories/Spec/HistDefs.v
theories/Spec/HistMainEx.v
theories/Spec/HistMains.v
theories/Spec/Histograms.v
theories/Spec/Images.v
theories/Spec/Interpolation.v
theories/Spec/Lines.v
theories/Spec/ManagerEx.v
theories/Spec/Mass.v
theories/Spec/Matrix.v
theories/Spec/Nets.v
theories/Spec/Pipelines.v
theories/Spec/Polys.v
theories/Spec/ProfileRuns.v
theories/Spec/PyArrays.v
theories/Spec/PyOwners.v
theories/Spec/PySheets.v
theories/Spec/Regions.v
theories/Spec/RenderMainEx.v
theories/Spec/RenderMains.v
theories/Spec/Renders.v
theories/Spec/Segments.v
theories/Spec/Slabs.v
theories/Spec/Sorting.v
theories/Spec/Stencils.v
theories/Spec/Streams.v
theories/Spec/VelEx.v
theories/Spec/VelRenders.v
theories/Spec/Work.v
theories/Spec/Workspace.v
theories/Spec/WrittenEx.v
theories/Spec/Writtens.v
theories/Model/Box.v
theories/Model/Buffers.v
theories/Model/Calc.v
theories/Model/Catalog.v
theories/Model/Config.v
theories/Model/Cosmo.v
theories/Model/Density.v
theories/Model/EvalAll.v
theories/Model/Filter.v
theories/Model/Gadget.v
theories/Model/Geom.v
theories/Model/GridDeriv.v
theories/Model/GridIO.v
theories/Model/Halo.v
theories/Model/Hist.v
theories/Model/HistMain.v
theories/Model/Interp.v
theories/Model/Main.v
theories/Model/Manager.v
theories/Model/Mat.v
theories/Model/Pipeline.v
theories/Model/Profile.v
theories/Model/ProfileMain.v
theories/Model/PyGrid.v
theories/Model/PyRender.v
theories/Model/PySheet.v
theories/Model/Rand.v
theories/Model/RandGen.v
theories/Model/ReadHalo.v
theories/Model/Render.v
theories/Model/RenderMain.v
theories/Model/SheetIO.v
theories/Model/Sort.v
theories/Model/Spline.v
theories/Proof/AddP.v
theories/Proof/BoundsP.v
theories/Proof/BuffersP.v
theories/Proof/BytesP.v
theories/Proof/CalcP.v
theories/Proof/CatalogP.v
theories/Proof/CatalogR.v
theories/Proof/CatalogS.v
theories/Proof/CatalogT.v
theories/Proof/ConfigP.v
theories/Proof/CubicP.v
theories/Proof/CurlP.v
theories/Proof/DepositP.v
theories/Proof/DetP.v
theories/Proof/EvalAllP.v
theories/Proof/FillP.v
theories/Proof/FilterP.v
theories/Proof/GadgetM.v
theories/Proof/GadgetP.v
theories/Proof/GadgetQ.v
theories/Proof/GadgetR.v
theories/Proof/GadgetX.v
theories/Proof/GeomR.v
theories/Proof/GridDerivP.v
theories/Proof/GridIOP.v
theories/Proof/GridP.v
theories/Proof/HaloE.v
theories/Proof/HaloF.v
theories/Proof/HaloP.v
theories/Proof/HaloR.v
theories/Proof/HaloT.v
theories/Proof/HaloW.v
theories/Proof/HaloX.v
theories/Proof/HistMainP.v
theories/Proof/HistMainQ.v
theories/Proof/HistP.v
theories/Proof/HistQ.v
theories/Proof/HistS.v
theories/Proof/HistT.v
theories/Proof/HistW.v
theories/Proof/IOCases.v
theories/Proof/ImageP.v
theories/Proof/InterpP.v
theories/Proof/LUP.v
theories/Proof/LUS.v
theories/Proof/MainP.v
theories/Proof/MainQ.v
theories/Proof/ManagerBox.v
theories/Proof/ManagerMass.v
theories/Proof/ManagerP.v
theories/Proof/ManagerX.v
theories/Proof/MassP.v
theories/Proof/MatP.v
theories/Proof/MatSize.v
theories/Proof/MatThm.v
theories/Proof/ModP.v
theories/Proof/ParticleP.v
theories/Proof/ParticleQ.v
theories/Proof/PipelineP.v
theories/Proof/PolyP.v
theories/Proof/Primes.v
theories/Proof/ProfileB.v
theories/Proof/ProfileL.v
theories/Proof/ProfileM.v
theories/Proof/ProfileP.v
theories/Proof/ProfileQ.v
theories/Proof/ProfileR.v
theories/Proof/ProfileX.v
theories/Proof/PyGridP.v
theories/Proof/PyRenderP.v
theories/Proof/PySheetP.v
theories/Proof/PySheetQ.v
theories/Proof/RandG.v
theories/Proof/RandU.v
theories/Proof/ReadHaloM.v
theories/Proof/ReadHaloP.v
theories/Proof/RenderMainP.v
theories/Proof/RenderMainQ.v
theories/Proof/RenderMainX.v
theories/Proof/RenderP.v
theories/Proof/SavGolP.v
theories/Proof/SegP.v
theories/Proof/SheetCull.v
theories/Proof/SheetFall.v
theories/Proof/SheetFrame.v
theories/Proof/SheetP.v
theories/Proof/SheetPass.v
theories/Proof/SheetScale.v
theories/Proof/SheetWork.v
theories/Proof/SliceP.v
theories/Proof/SobolNet.v
theories/Proof/SobolP.v
theories/Proof/SobolQ.v
theories/Proof/SobolTab.v
theories/Proof/SortInst.v
theories/Proof/SortP.v
theories/Proof/SplineD.v
theories/Proof/SplineP.v
theories/Proof/StrideP.v
theories/Proof/SumP.v
theories/Proof/TausP.v
theories/Proof/TileP.v
theories/Proof/TriDiagP.v
theories/Proof/VelBox.v
theories/Proof/VelImages.v
theories/Proof/VelP.v
theories/Proof/VelWork.v
theories/Proof/VelX.v
theories/Proof/WorkP.v
theories/Proof/WorkersP.v
theories/Proof/WrittenP.v
theories/Proof/WrittenX.v
theories/Proof/XorPeriod.v
theories/Proof/XorshiftP.v
theories/Props/Properties_Buffers.v
theories/Props/Properties_Filter.v
theories/Props/Properties_Gadget.v
theories/Props/Properties_Gen.v
theories/Props/Properties_Geom.v
theories/Props/Properties_GridDeriv.v
theories/Props/Properties_Halo.v
theories/Props/Properties_Hist.v
theories/Props/Properties_HistMain.v
theories/Props/Properties_IO.v
theories/Props/Properties_Interp.v
theories/Props/Properties_Main.v
theories/Props/Properties_Manager.v
theories/Props/Properties_Mat.v
theories/Props/Properties_Python.v
theories/Props/Properties_Rand.v
theories/Props/Properties_RandCycle.v
theories/Props/Properties_Render.v
theories/Props/Properties_RenderMain.v
theories/Props/Properties_Scripts.v
theories/Props/Properties_Sort.v
theories/Props/Properties_Vel.v
theories/Props/Properties_Written.v
