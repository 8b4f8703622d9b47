-Q theories Verif
theories/Base.v
theories/Num.v
theories/NumR.v
theories/NumF.v
theories/Momentum.v
theories/RNG.v
theories/Complex.v
theories/Lattice.v
theories/Bundle.v
theories/IndexMap.v
theories/Weights.v
theories/Diagram.v
theories/Markov.v
theories/DiagramIO.v
theories/DiagramCheck.v
theories/History.v
theories/P_Momentum.v
theories/Prop_Momentum.v
theories/P_RNG.v
theories/Prop_RNG.v
theories/P_Bundle.v
theories/Prop_Bundle.v
theories/P_Lattice.v
theories/Prop_Lattice.v
theories/P_Complex.v
theories/Prop_Complex.v
theories/P_IndexMap.v
theories/Prop_IndexMap.v
theories/P_WP.v
theories/P_Inv.v
theories/P_Rel.v
theories/P_Sem1.v
theories/P_Sem2.v
theories/P_Sem3.v
theories/P_Pres1.v
theories/P_Pres2.v
theories/P_Pres3.v
theories/P_Pres4.v
theories/P_Hop.v
theories/P_Fix.v
theories/P_IO.v
theories/P_History.v
theories/P_Promises.v
theories/Prop_Markov.v
theories/P_IOProm.v
theories/Prop_IO.v
theories/P_Perm.v
theories/P_Loop.v
theories/Prop_Loop.v
theories/P_Weight.v
theories/Prop_Weight.v
theories/P_Step.v
theories/P_Float.v
theories/P_FloatTau.v
theories/Prop_Float.v
theories/Prop_Step.v
theories/Target.v
theories/P_MH.v
theories/Alike.v
theories/P_Alike.v
theories/P_Reach.v
theories/P_Undo.v
theories/P_Can.v
theories/P_Reverse.v
theories/Prop_MH.v
theories/P_Check.v
theories/P_CheckW.v
theories/Prop_Check.v
theories/Prop_Reverse.v
theories/Estimator.v
theories/P_Estimator.v
theories/Prop_Estimator.v
theories/WeightEstimator.v
theories/P_WeightEst.v
theories/Prop_WeightEst.v
theories/Interrupt.v
theories/P_Interrupt.v
theories/Prop_Interrupt.v
theories/Gamma3.v
theories/P_Gamma3.v
theories/Prop_Gamma3.v
theories/Monitor.v
theories/P_Monitor.v
theories/P_MonitorR.v
theories/P_Trap.v
theories/Prop_Monitor.v
theories/PyDict.v
theories/Param.v
theories/ConfigPy.v
theories/P_Param.v
theories/P_ParamIO.v
theories/Prop_Param.v
theories/Life.v
theories/P_Life.v
theories/Prop_Life.v
theories/Env.v
theories/P_Env.v
theories/Job.v
theories/P_Job.v
theories/P_JobR.v
theories/MainLoop.v
theories/P_Main.v
theories/Prop_Env.v
theories/Prop_Job.v
theories/Prop_Main.v
theories/Walks.v
theories/P_Trans.v
theories/P_Trans2.v
theories/P_Trans3.v
theories/Prop_Trans.v
theories/JobSpec.v
theories/P_Env2.v
theories/P_Param2.v
theories/Prop_Env2.v
theories/Clock.v
theories/MainSpec.v
theories/P_Main2.v
theories/Prop_Main2.v
theories/VividSpec.v
theories/P_Vivid.v
theories/Prop_Vivid.v
theories/Glue.v
theories/GlueSpec.v
theories/P_Glue.v
theories/P_Glue2.v
theories/Prop_Glue.v
theories/Collect.v
theories/CollectSpec.v
theories/P_Collect.v
theories/P_Collect2.v
theories/Prop_Collect.v
theories/PyWeight.v
theories/PyWeightSpec.v
theories/P_Fourier.v
theories/P_PyWeight.v
theories/P_PyWeight2.v
theories/SelfCons.v
theories/SelfConsSpec.v
theories/P_SelfCons.v
theories/P_PyWeight3.v
theories/Prop_PyWeight.v
theories/Prop_SelfCons.v
theories/Dyson.v
theories/DysonSpec.v
theories/P_Dyson.v
theories/P_Dyson2.v
theories/P_Dyson3.v
theories/Prop_Dyson.v
theories/P_Collect3.v
theories/PyIndex.v
theories/P_PyIndex.v
theories/Prop_PyIndex.v
theories/FirstOrder.v
theories/FirstOrderSpec.v
theories/P_First.v
theories/P_First2.v
theories/P_First3.v
theories/Prop_First.v
theories/BareModel.v
theories/BareSpec.v
theories/P_Bare.v
theories/P_Bare2.v
theories/P_Bare3.v
theories/P_Bare4.v
theories/Prop_Bare.v
theories/BareG.v
theories/P_BareG.v
theories/P_BareG2.v
theories/Prop_BareG.v
theories/Manager.v
theories/P_Manager.v
theories/P_Manager2.v
theories/Prop_Manager.v
theories/Session.v
theories/SessionSpec.v
theories/P_Session.v
theories/Prop_Session.v
theories/Basis.v
theories/P_Basis.v
theories/Prop_Basis.v
theories/Measure.v
theories/P_Measure.v
theories/Prop_Measure.v
theories/Squeeze.v
theories/SqueezeSpec.v
theories/P_Squeeze.v
theories/P_Squeeze2.v
theories/P_Squeeze3.v
theories/Prop_Squeeze.v
theories/Vertex.v
theories/VertexSpec.v
theories/P_Vertex.v
theories/P_Vertex2.v
theories/Prop_Vertex.v
theories/TwoW.v
theories/P_TwoW.v
theories/Prop_TwoW.v
theories/BKChi.v
theories/BKChiSpec.v
theories/P_BKChi.v
theories/P_BKChi2.v
theories/Prop_BKChi.v
theories/SumRule.v
theories/P_SumRule.v
theories/Prop_SumRule.v
theories/CollectGamma.v
theories/P_CollectGamma.v
theories/Prop_CollectGamma.v
theories/BigDict.v
theories/P_BigDict.v
theories/Prop_BigDict.v
theories/Channel.v
theories/P_Channel.v
theories/Prop_Channel.v
theories/Observe.v
theories/P_Observe.v
theories/Prop_Observe.v
theories/Occupation.v
theories/P_Occupation.v
theories/Prop_Occupation.v
