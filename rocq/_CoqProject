-Q theories Verif
theories/Py.v
theories/Num.v
theories/RX.v
theories/F64.v
theories/Np.v
theories/Df.v
theories/Data.v
theories/DataFacts.v
theories/DfFacts.v
theories/RebuildFacts.v
theories/Center.v
theories/CenterFacts.v
theories/Spec.v
theories/SpecR.v
theories/Ex.v
theories/DataThms.v
theories/Prop_Data.v
theories/Align.v
theories/CenterThms.v
theories/Prop_Center.v
theories/AlignFacts.v
theories/AlignThms.v
theories/Prop_Align.v
theories/Potential.v
theories/PotConc.v
theories/SpecPot.v
theories/PotConcFacts.v
theories/PotFacts.v
theories/PotThms.v
theories/Prop_Pot.v
theories/Circ.v
theories/SpecCirc.v
theories/CircFacts.v
theories/CurveFacts.v
theories/CircThms.v
theories/Prop_Circ.v
theories/SpecBase.v
theories/Base.v
theories/BaseFacts.v
theories/BaseThms.v
theories/Prop_Base.v
theories/Threshold.v
theories/EpsFacts.v
theories/ThresholdThms.v
theories/Prop_Threshold.v
theories/Hist.v
theories/SpecHist.v
theories/EdgeFacts.v
theories/HistFacts.v
theories/HistThms.v
theories/Prop_Hist.v
theories/EdgeThms.v
theories/Prop_Edge.v
theories/EnergyFacts.v
theories/EnergyThms.v
theories/Prop_Energy.v
theories/SpecMix.v
theories/Mixture.v
theories/MixFacts.v
theories/MixStar.v
theories/MixThms.v
theories/Prop_Mix.v
theories/Io.v
theories/SpecIo.v
theories/IoFacts.v
theories/IoThms.v
theories/Prop_Io.v
theories/Plot.v
theories/SpecPlot.v
theories/PlotFacts.v
theories/PlotThms.v
theories/Prop_Plot.v
theories/SpecPipe.v
theories/PipeThms.v
theories/Prop_Pipe.v
theories/Header.v
theories/SpecHeader.v
theories/HeaderThms.v
theories/Prop_Header.v
theories/SpecAcc.v
theories/AccFacts.v
theories/AccThms.v
theories/Prop_Acc.v
theories/Ctor.v
theories/SpecCtor.v
theories/CtorFacts.v
theories/CtorThms.v
theories/Prop_Ctor.v
theories/SpecAlAcc.v
theories/AlAccFacts.v
theories/AlAccRot.v
theories/AlAccSum.v
theories/AlAccThms.v
theories/Prop_AlAcc.v
theories/AlCutThms.v
theories/Prop_AlCut.v
theories/Units.v
theories/SpecUnits.v
theories/UnitsFacts.v
theories/UnitsThms.v
theories/Prop_Units.v
theories/CtrAccThms.v
theories/Prop_CtrAcc.v
theories/SpecOrder.v
theories/OrderThms.v
theories/Prop_Order.v
theories/SpecSym.v
theories/SymFacts.v
theories/ScaleFacts.v
theories/SymThms.v
theories/Prop_Sym.v
theories/NodeThms.v
theories/Prop_Node.v
theories/InvThms.v
theories/Prop_Inv.v
theories/SpecFrame.v
theories/FrameThms.v
theories/Prop_Frame.v
theories/Unique.v
theories/SpecUnique.v
theories/UniqueThms.v
theories/Prop_Unique.v
theories/SpecMirror.v
theories/MirrorThms.v
theories/Prop_Mirror.v
theories/SpinThms.v
theories/Prop_Spin.v
theories/EpsAccFacts.v
theories/EpsAccThms.v
theories/Prop_EpsAcc.v
theories/EpsCutThms.v
theories/Prop_EpsCut.v
theories/SpinAccThms.v
theories/Prop_SpinAcc.v
theories/SpecGroup.v
theories/GroupAccThms.v
theories/Prop_GroupAcc.v
theories/SpecPotAcc.v
theories/PotAccThms.v
theories/Prop_PotAcc.v
theories/SpecSplit.v
theories/SplitThms.v
theories/Prop_Split.v
theories/SpecNpAcc.v
theories/NpAccThms.v
theories/Prop_NpAcc.v
theories/StoreThms.v
theories/Prop_Store.v
theories/Equal.v
theories/SpecEqual.v
theories/EqualThms.v
theories/Prop_Equal.v
theories/Resource.v
theories/SpecResource.v
theories/ResourceFacts.v
theories/ResourceThms.v
theories/Prop_Resource.v
theories/Setup.v
theories/SpecSetup.v
theories/SetupThms.v
theories/Prop_Setup.v
theories/Fma.v
theories/SpecFma.v
theories/FmaThms.v
theories/Prop_Fma.v
theories/SpecGalEnergy.v
theories/GalEnergyThms.v
theories/Prop_GalEnergy.v
theories/SpecChain.v
theories/ChainFacts.v
theories/ChainThms.v
theories/Prop_Chain.v
theories/Dgemm.v
theories/SpecDgemm.v
theories/DgemmThms.v
theories/Prop_Dgemm.v
theories/SpecWhich.v
theories/WhichThms.v
theories/Prop_Which.v
theories/SpecCurve.v
theories/PolyFacts.v
theories/ChoiceFacts.v
theories/CurveAccFacts.v
theories/CurveAccThms.v
theories/Prop_Curve.v
theories/SpecWhole.v
theories/WholeThms.v
theories/Prop_Whole.v
theories/SpecWidth.v
theories/WidthThms.v
theories/Prop_Width.v
theories/SpecWhist.v
theories/WhistFacts.v
theories/WhistThms.v
theories/Prop_Whist.v
theories/SpecShift.v
theories/ShiftFacts.v
theories/UnitFacts.v
theories/UnitChain.v
theories/UnitThms.v
theories/Prop_Unit.v
theories/SpecUnitPot.v
theories/ShiftDiv.v
theories/UnitPot.v
theories/UnitPotThms.v
theories/Prop_UnitPot.v
theories/SpecBoost.v
theories/BoostThms.v
theories/Prop_Boost.v
theories/SpecCut.v
theories/CutChain.v
theories/CutThms.v
theories/Prop_Cut.v
theories/SpecRows.v
theories/RowFacts.v
theories/RowThms.v
theories/Prop_Rows.v
theories/SpecBins.v
theories/BinsThms.v
theories/Prop_Bins.v
theories/SpecIdle.v
theories/IdleThms.v
theories/Prop_Idle.v
theories/SpecWbins.v
theories/WbinsFacts.v
theories/WbinsThms.v
theories/Prop_Wbins.v
theories/SpecAgain.v
theories/AgainThms.v
theories/Prop_Again.v
theories/SpecImage.v
theories/MirFacts.v
theories/ImageThms.v
theories/Prop_Image.v
theories/SpecAxes.v
theories/AxesThms.v
theories/Prop_Axes.v
theories/SpecJe.v
theories/JeThms.v
theories/Prop_Je.v
theories/SpecRegroup.v
theories/RegroupThms.v
theories/Prop_Regroup.v
theories/SpecTracer.v
theories/TracerFacts.v
theories/TracerThms.v
theories/Prop_Tracer.v
theories/SpecVersus.v
theories/VersusThms.v
theories/Prop_Versus.v
theories/SpecNested.v
theories/NestedThms.v
theories/Prop_Nested.v
theories/EnestThms.v
theories/Prop_Enest.v
theories/BicThms.v
theories/Prop_Bic.v
theories/SpecDeep.v
theories/DeepThms.v
theories/Prop_Deep.v
theories/RcutThms.v
theories/Prop_Rcut.v
theories/SpecMore.v
theories/MoreThms.v
theories/Prop_More.v
