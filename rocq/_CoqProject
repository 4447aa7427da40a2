-Q theories Verif
theories/Base/Num.v
theories/Base/Perm.v
theories/Base/RNum.v
theories/Base/Res.v
theories/Base/SMap.v
theories/Model/Axis.v
theories/Model/Bayes.v
theories/Model/BayesPoisson.v
theories/Model/BedOps.v
theories/Model/Bulk.v
theories/Model/Chain.v
theories/Model/ChiSq.v
theories/Model/Comp.v
theories/Model/Constraint.v
theories/Model/Conv.v
theories/Model/Count.v
theories/Model/Cut.v
theories/Model/Data.v
theories/Model/Density.v
theories/Model/DistTools.v
theories/Model/ED.v
theories/Model/EDM.v
theories/Model/EDMan.v
theories/Model/Event.v
theories/Model/Fill.v
theories/Model/Fit.v
theories/Model/Float.v
theories/Model/Gauss.v
theories/Model/Gen.v
theories/Model/Grid.v
theories/Model/HMC.v
theories/Model/Hist.v
theories/Model/HistTools.v
theories/Model/IO.v
theories/Model/Ini.v
theories/Model/MCMC.v
theories/Model/Matrix.v
theories/Model/Minuit.v
theories/Model/NLLH.v
theories/Model/Own.v
theories/Model/Param.v
theories/Model/Rand.v
theories/Model/Report.v
theories/Model/Root.v
theories/Model/Shrink.v
theories/Model/Sigmoid.v
theories/Model/Smear.v
theories/Model/Sum.v
theories/Model/Syst.v
theories/Model/SystMan.v
theories/Model/Twin.v
theories/Model/Vary.v
theories/Model/Wrap.v
theories/Spec/AsimovSpec.v
theories/Spec/AxisSpec.v
theories/Spec/BayesPoissonSpec.v
theories/Spec/BayesSpec.v
theories/Spec/BedOpsSpec.v
theories/Spec/BufferSpec.v
theories/Spec/BulkSpec.v
theories/Spec/ChainSpec.v
theories/Spec/ChiSqSpec.v
theories/Spec/ClientSpec.v
theories/Spec/CompSpec.v
theories/Spec/ConstraintSpec.v
theories/Spec/ConvSpec.v
theories/Spec/CountSpec.v
theories/Spec/CutSpec.v
theories/Spec/DataSpec.v
theories/Spec/DensitySpec.v
theories/Spec/DistToolsSpec.v
theories/Spec/EDMSpec.v
theories/Spec/EDManSpec.v
theories/Spec/EventsSpec.v
theories/Spec/FillSpec.v
theories/Spec/FitSpec.v
theories/Spec/FloatSpec.v
theories/Spec/GaussSpec.v
theories/Spec/GenSpec.v
theories/Spec/GridSpec.v
theories/Spec/HMCSpec.v
theories/Spec/HistSpec.v
theories/Spec/HistToolsSpec.v
theories/Spec/IOSpec.v
theories/Spec/IniSpec.v
theories/Spec/JointSpec.v
theories/Spec/MCMCSpec.v
theories/Spec/MinuitSpec.v
theories/Spec/NLLHSpec.v
theories/Spec/NLLHSysSpec.v
theories/Spec/OrderSpec.v
theories/Spec/OwnSpec.v
theories/Spec/ParamSpec.v
theories/Spec/ProjSpec.v
theories/Spec/ReportSpec.v
theories/Spec/RootSpec.v
theories/Spec/ShrinkSpec.v
theories/Spec/SigmoidSpec.v
theories/Spec/SmearSpec.v
theories/Spec/SumSpec.v
theories/Spec/SystManSpec.v
theories/Spec/SystSpec.v
theories/Spec/VarySpec.v
theories/Spec/WarpSpec.v
theories/Proofs/AsimovP.v
theories/Proofs/AsimovP2.v
theories/Proofs/AxisP.v
theories/Proofs/AxisP2.v
theories/Proofs/BayesP.v
theories/Proofs/BayesP2.v
theories/Proofs/BayesP3.v
theories/Proofs/BayesP4.v
theories/Proofs/BedOpsP.v
theories/Proofs/BufferP1.v
theories/Proofs/BufferP2.v
theories/Proofs/BufferP3.v
theories/Proofs/BufferP4.v
theories/Proofs/BufferP5.v
theories/Proofs/BufferP6.v
theories/Proofs/BulkP.v
theories/Proofs/ChainP.v
theories/Proofs/ChiSqP.v
theories/Proofs/ClientP.v
theories/Proofs/CompP.v
theories/Proofs/CompP2.v
theories/Proofs/CompP3.v
theories/Proofs/ConstraintP.v
theories/Proofs/ConstraintP2.v
theories/Proofs/ConvP.v
theories/Proofs/CountP.v
theories/Proofs/CutP.v
theories/Proofs/CutP2.v
theories/Proofs/DataP.v
theories/Proofs/DensityP.v
theories/Proofs/DistToolsP.v
theories/Proofs/DistToolsP2.v
theories/Proofs/DistToolsP3.v
theories/Proofs/DistToolsP4.v
theories/Proofs/EDMP.v
theories/Proofs/EDManP.v
theories/Proofs/EDManP2.v
theories/Proofs/EventsP.v
theories/Proofs/FillP.v
theories/Proofs/FillP2.v
theories/Proofs/FillP3.v
theories/Proofs/FitP.v
theories/Proofs/FitP2.v
theories/Proofs/FloatP1.v
theories/Proofs/FloatP2.v
theories/Proofs/FloatP3.v
theories/Proofs/FloatP4.v
theories/Proofs/FloatP5.v
theories/Proofs/GaussP.v
theories/Proofs/GaussP2.v
theories/Proofs/GaussP3.v
theories/Proofs/GaussP4.v
theories/Proofs/GaussP5.v
theories/Proofs/GaussP6.v
theories/Proofs/GenP.v
theories/Proofs/GenP2.v
theories/Proofs/GenP3.v
theories/Proofs/GenP4.v
theories/Proofs/GenP5.v
theories/Proofs/GenP6.v
theories/Proofs/GenP7.v
theories/Proofs/GenP8.v
theories/Proofs/GridP.v
theories/Proofs/GridP2.v
theories/Proofs/GridP3.v
theories/Proofs/GridP4.v
theories/Proofs/HMCP.v
theories/Proofs/HMCP2.v
theories/Proofs/HMCP3.v
theories/Proofs/HMCP4.v
theories/Proofs/HMCP5.v
theories/Proofs/HistP.v
theories/Proofs/HistP2.v
theories/Proofs/HistP3.v
theories/Proofs/HistP4.v
theories/Proofs/HistP5.v
theories/Proofs/HistToolsP.v
theories/Proofs/HistToolsP2.v
theories/Proofs/HistToolsP3.v
theories/Proofs/IOP.v
theories/Proofs/IOP2.v
theories/Proofs/IOP3.v
theories/Proofs/IOP4.v
theories/Proofs/IOP5.v
theories/Proofs/IniP.v
theories/Proofs/IniP2.v
theories/Proofs/IniP3.v
theories/Proofs/IniP4.v
theories/Proofs/InterpP.v
theories/Proofs/JointP.v
theories/Proofs/MCMCP.v
theories/Proofs/MCMCP2.v
theories/Proofs/MCMCP3.v
theories/Proofs/MCMCP4.v
theories/Proofs/MCMCP5.v
theories/Proofs/MCMCP6.v
theories/Proofs/MinuitP.v
theories/Proofs/MinuitP2.v
theories/Proofs/MinuitP3.v
theories/Proofs/MinuitP4.v
theories/Proofs/MoreP.v
theories/Proofs/NLLHP.v
theories/Proofs/NLLHP2.v
theories/Proofs/NLLHP3.v
theories/Proofs/NLLHP4.v
theories/Proofs/NLLHP5.v
theories/Proofs/NLLHP6.v
theories/Proofs/NLLHP7.v
theories/Proofs/NLLHP8.v
theories/Proofs/NLLHS1.v
theories/Proofs/NLLHS10.v
theories/Proofs/NLLHS11.v
theories/Proofs/NLLHS12.v
theories/Proofs/NLLHS2.v
theories/Proofs/NLLHS3.v
theories/Proofs/NLLHS4.v
theories/Proofs/NLLHS5.v
theories/Proofs/NLLHS6.v
theories/Proofs/NLLHS7.v
theories/Proofs/NLLHS8.v
theories/Proofs/NLLHS9.v
theories/Proofs/OrderP.v
theories/Proofs/OrderP2.v
theories/Proofs/OwnP.v
theories/Proofs/OwnP2.v
theories/Proofs/OwnP3.v
theories/Proofs/ParamP.v
theories/Proofs/ParamP2.v
theories/Proofs/ParamP3.v
theories/Proofs/ProjP1.v
theories/Proofs/ProjP2.v
theories/Proofs/ProjP3.v
theories/Proofs/ProjP4.v
theories/Proofs/ProjP5.v
theories/Proofs/RandP.v
theories/Proofs/ReportP.v
theories/Proofs/ReportP2.v
theories/Proofs/RootP.v
theories/Proofs/ShrinkP.v
theories/Proofs/ShrinkP2.v
theories/Proofs/ShrinkP3.v
theories/Proofs/SigmoidP.v
theories/Proofs/SmearP.v
theories/Proofs/SumP.v
theories/Proofs/SumP2.v
theories/Proofs/SumP3.v
theories/Proofs/SystManP.v
theories/Proofs/SystManP2.v
theories/Proofs/SystManP3.v
theories/Proofs/SystManP4.v
theories/Proofs/SystP.v
theories/Proofs/SystP2.v
theories/Proofs/SystP3.v
theories/Proofs/SystP4.v
theories/Proofs/SystP5.v
theories/Proofs/SystP6.v
theories/Proofs/SystP7.v
theories/Proofs/SystP8.v
theories/Proofs/SystP9.v
theories/Proofs/TwinP.v
theories/Proofs/TwinP2.v
theories/Proofs/TwinP3.v
theories/Proofs/VaryP.v
theories/Proofs/WarpP.v
theories/Proofs/WrapP.v
theories/Props/AsimovProps.v
theories/Props/AxisProps.v
theories/Props/BBSysProps.v
theories/Props/BayesProps.v
theories/Props/BedOpsProps.v
theories/Props/BufferProps.v
theories/Props/BulkProps.v
theories/Props/ChainProps.v
theories/Props/ChiSqProps.v
theories/Props/ClientProps.v
theories/Props/CompProps.v
theories/Props/ConstraintProps.v
theories/Props/ConvProps.v
theories/Props/CutProps.v
theories/Props/DataProps.v
theories/Props/DensityProps.v
theories/Props/DistToolsProps.v
theories/Props/EDMProps.v
theories/Props/EDManProps.v
theories/Props/EventsProps.v
theories/Props/FillProps.v
theories/Props/FitProps.v
theories/Props/FloatProps.v
theories/Props/GaussProps.v
theories/Props/GenProps.v
theories/Props/GridProps.v
theories/Props/HMCProps.v
theories/Props/HistProps.v
theories/Props/HistToolsProps.v
theories/Props/IOProps.v
theories/Props/IniProps.v
theories/Props/JointProps.v
theories/Props/MCMCProps.v
theories/Props/MinuitProps.v
theories/Props/MoreProps.v
theories/Props/NLLHProps.v
theories/Props/NLLHSysProps.v
theories/Props/OrderProps.v
theories/Props/OwnProps.v
theories/Props/ParamProps.v
theories/Props/ProjProps.v
theories/Props/RandProps.v
theories/Props/ReportProps.v
theories/Props/RootProps.v
theories/Props/ShrinkProps.v
theories/Props/SigmoidProps.v
theories/Props/SmearProps.v
theories/Props/SumProps.v
theories/Props/SystManProps.v
theories/Props/SystProps.v
theories/Props/TwinProps.v
theories/Props/VaryProps.v
theories/Props/WarpProps.v
theories/Props/WrapProps.v
