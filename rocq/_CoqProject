-Q theories Verif
theories/Base.v
theories/Num.v
theories/NumPy.v
theories/HkModel.v
theories/Spec.v
theories/HkProofs.v
theories/HkReal.v
theories/HkFacts.v
theories/HkFacts2.v
theories/P_Hk.v
theories/HkFacts3.v
theories/HkFacts4.v
theories/DrawSpec.v
theories/P_Hk2.v
theories/P_Hk3.v
theories/P_Hk4.v
theories/P_Hk5.v
theories/P_Hk6.v
theories/P_HkEx.v
theories/P_HkEx2.v
theories/PlotModel.v
theories/PlotProofs.v
theories/PlotProofs2.v
theories/PlotProofs3.v
theories/P_Plot.v
theories/P_Plot2.v
theories/PlotProofs4.v
theories/P_Plot3.v
theories/P_Plot4.v
theories/Cplx.v
theories/DFT.v
theories/ReverbModel.v
theories/ReverbProofs.v
theories/ReverbProofs2.v
theories/SpecSignal.v
theories/P_Reverb.v
theories/P_Reverb2.v
theories/P_Reverb3.v
theories/DFT2.v
theories/DeconModel.v
theories/DeconProofs.v
theories/DeconProofs2.v
theories/DeconProofs3.v
theories/P_Decon.v
theories/DeconProofs4.v
theories/DeconProofs5.v
theories/P_Decon2.v
theories/Mat4.v
theories/SpecElastic.v
theories/HaskellModel.v
theories/HaskellProofs.v
theories/HaskellProofs2.v
theories/HaskellProofs3.v
theories/HaskellProofs4.v
theories/HaskellProofs5.v
theories/HaskellProofs6.v
theories/P_Haskell.v
theories/P_Haskell2.v
theories/SynModel.v
theories/P_Syn.v
theories/P_Syn2.v
theories/PoolModel.v
theories/PoolProofs.v
theories/P_Pool.v
theories/ExtractModel.v
theories/P_Extract.v
theories/WaveModel.v
theories/WaveProofs.v
theories/P_Wave.v
theories/P_Wave2.v
theories/P_Wave3.v
theories/P_Wave4.v
theories/P_Wave5.v
theories/P_Wave6.v
theories/WaveSyn.v
theories/P_Wave7.v
theories/FsModel.v
theories/SpecFs.v
theories/FsProofs.v
theories/FsProofs2.v
theories/P_Fs.v
theories/P_Fs2.v
theories/Float64.v
theories/FloatErr.v
theories/FloatHk.v
theories/FloatStack.v
theories/P_Float.v
theories/P_Float2.v
theories/P_FloatEx.v
theories/FloatSeq.v
theories/FloatTable.v
theories/FloatOne.v
theories/P_Float3.v
theories/P_Float4.v
theories/P_Float5.v
theories/P_FloatEx2.v
theories/P_FloatEx3.v
theories/ShowModel.v
theories/P_Show.v
theories/P_Show2.v
theories/SpecArrival.v
theories/P_Arrival.v
theories/P_Arrival2.v
theories/P_Arrival3.v
theories/P_Legend.v
theories/P_Legend2.v
theories/P_Legend3.v
theories/P_Plot5.v
theories/LeastSquares.v
theories/SpecConv.v
theories/DeconConv.v
theories/P_Conv.v
theories/P_Samples.v
theories/GlobModel.v
theories/P_Glob.v
theories/P_Meta.v
theories/P_Meta2.v
theories/P_Meta3.v
theories/P_MetaEx.v
theories/P_Units.v
theories/P_Units2.v
theories/P_Units3.v
theories/P_Shift.v
theories/P_ExtractMeta.v
theories/P_Wave8.v
theories/P_FiltPlot.v
theories/P_Reverb4.v
theories/P_Wave9.v
theories/InstallModel.v
theories/InstallProofs.v
theories/P_Install.v
theories/P_Missing.v
theories/P_Hk7.v
theories/P_Float6.v
theories/P_FloatEx4.v
theories/SessionModel.v
theories/P_Session.v
theories/SynSessionModel.v
theories/P_SynSession.v
theories/P_Wave10.v
theories/P_Float7.v
theories/PyplotModel.v
theories/P_Pyplot.v
theories/P_Pyplot2.v
theories/P_Noise.v
theories/P_NoiseEx.v
theories/P_WlNoise.v
theories/P_WaveNoise.v
theories/PoolLifeModel.v
theories/P_PoolLife.v
theories/P_Reverb5.v
theories/P_Reverb6.v
theories/P_Reverb7.v
theories/P_Reverb8.v
theories/P_DeconHk.v
theories/ArrSessionModel.v
theories/P_ArrSession.v
theories/P_DeconHkNoise.v
theories/P_IterNoise.v
theories/LoadModel.v
theories/P_Load.v
theories/P_Reverb9.v
theories/P_IterYu.v
theories/P_WaterYu.v
theories/P_SeqDecon.v
theories/P_WaterFit.v
theories/P_WaterFit2.v
theories/P_Ex.v
