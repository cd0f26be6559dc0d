-Q theories Verif
theories/Model/Bell.v
theories/Model/Domain.v
theories/Model/Expr.v
theories/Model/Helpers.v
theories/Model/Integrators.v
theories/Model/Interp.v
theories/Model/Num.v
theories/Model/NumFloat.v
theories/Model/Plot.v
theories/Model/Py.v
theories/Model/Quadrature.v
theories/Model/Refine.v
theories/Model/Simulation.v
theories/Model/Steps.v
theories/Model/Tensors.v
theories/Model/TensorsX.v
theories/Proofs/BellD.v
theories/Proofs/BellDer.v
theories/Proofs/BellE.v
theories/Proofs/BellG.v
theories/Proofs/BellP.v
theories/Proofs/BellQ.v
theories/Proofs/BellV.v
theories/Proofs/BernP.v
theories/Proofs/BernQ.v
theories/Proofs/BernR.v
theories/Proofs/ConsistP.v
theories/Proofs/ConvP.v
theories/Proofs/ConvQ.v
theories/Proofs/DetList.v
theories/Proofs/DetP.v
theories/Proofs/EqMesh.v
theories/Proofs/EqP.v
theories/Proofs/EqRect.v
theories/Proofs/ExprP.v
theories/Proofs/FindP.v
theories/Proofs/FlatF.v
theories/Proofs/FlatG.v
theories/Proofs/FlatH.v
theories/Proofs/FlatQ.v
theories/Proofs/FlatV.v
theories/Proofs/FloatD.v
theories/Proofs/FloatE.v
theories/Proofs/FloatLoc.v
theories/Proofs/FloatLocM.v
theories/Proofs/FloatN.v
theories/Proofs/FloatR.v
theories/Proofs/FloatRef.v
theories/Proofs/FloatTop.v
theories/Proofs/GenRefine.v
theories/Proofs/GridCover.v
theories/Proofs/GridFix.v
theories/Proofs/GridP.v
theories/Proofs/GridTopo.v
theories/Proofs/HatP.v
theories/Proofs/IntegP.v
theories/Proofs/InterpP.v
theories/Proofs/Lattice.v
theories/Proofs/Lib.v
theories/Proofs/LipMin.v
theories/Proofs/LipMore.v
theories/Proofs/LocateP.v
theories/Proofs/MechD.v
theories/Proofs/MechL.v
theories/Proofs/MechP.v
theories/Proofs/MechV.v
theories/Proofs/MeshArea.v
theories/Proofs/MeshLat.v
theories/Proofs/MeshLoc.v
theories/Proofs/MeshP.v
theories/Proofs/NearP.v
theories/Proofs/PerturbP.v
theories/Proofs/PlotD.v
theories/Proofs/PlotP.v
theories/Proofs/PlotS.v
theories/Proofs/PotP.v
theories/Proofs/PrintP.v
theories/Proofs/QuadP.v
theories/Proofs/QuadP2.v
theories/Proofs/QuadQ.v
theories/Proofs/RealRef.v
theories/Proofs/RectMesh.v
theories/Proofs/RefineAll.v
theories/Proofs/RefineBd.v
theories/Proofs/RefineEdge.v
theories/Proofs/RefineMesh.v
theories/Proofs/RefineOut.v
theories/Proofs/RefineP.v
theories/Proofs/RefineRect.v
theories/Proofs/RefineSetup.v
theories/Proofs/RefineTri.v
theories/Proofs/SeqEqP.v
theories/Proofs/SideP.v
theories/Proofs/SimA.v
theories/Proofs/SimC.v
theories/Proofs/SimE.v
theories/Proofs/SimF.v
theories/Proofs/SimH.v
theories/Proofs/SimL.v
theories/Proofs/SimP.v
theories/Proofs/SimQ.v
theories/Proofs/SimR.v
theories/Proofs/SliceP.v
theories/Proofs/StdOrder.v
theories/Proofs/StepC.v
theories/Proofs/StepD.v
theories/Proofs/StepE.v
theories/Proofs/StepF.v
theories/Proofs/StepG.v
theories/Proofs/StepH.v
theories/Proofs/StepP.v
theories/Proofs/StepU.v
theories/Proofs/TameHeat.v
theories/Proofs/TameP.v
theories/Proofs/TaylorP.v
theories/Proofs/TensorsP.v
theories/Proofs/ThermP.v
theories/Proofs/ThermQ.v
theories/Proofs/ThermV.v
theories/Proofs/TwoMin.v
theories/Props/AffineProps.v
theories/Props/BalanceProps.v
theories/Props/BellProps.v
theories/Props/CoarseProps.v
theories/Props/ConsistExamples.v
theories/Props/ConsistProps.v
theories/Props/ConsistRExamples.v
theories/Props/ConsistRProps.v
theories/Props/ConvBellProps.v
theories/Props/ConvProps.v
theories/Props/ConvQuadProps.v
theories/Props/EnergyExamples.v
theories/Props/EnergyProps.v
theories/Props/ExistProps.v
theories/Props/FailProps.v
theories/Props/FilmProps.v
theories/Props/FlatProps.v
theories/Props/FlatRestExamples.v
theories/Props/FlatRestProps.v
theories/Props/FloatExamples.v
theories/Props/FloatLocProps.v
theories/Props/FloatProps.v
theories/Props/ForcingProps.v
theories/Props/GridPlotProps.v
theories/Props/GridProps.v
theories/Props/HeatExamples.v
theories/Props/HeatLimitExamples.v
theories/Props/HeatLimitProps.v
theories/Props/HeatLimitRProps.v
theories/Props/HeatProps.v
theories/Props/IdealProps.v
theories/Props/IntegProps.v
theories/Props/InterpProps.v
theories/Props/LocateProps.v
theories/Props/MechExistProps.v
theories/Props/MeshIntegProps.v
theories/Props/MeshLocateProps.v
theories/Props/MomentumProps.v
theories/Props/MoreExamples.v
theories/Props/Near1Examples.v
theories/Props/Near1Props.v
theories/Props/Near2Props.v
theories/Props/Near3Props.v
theories/Props/NearExamples.v
theories/Props/NearProps.v
theories/Props/ParamProps.v
theories/Props/PlotProps.v
theories/Props/PlotView.v
theories/Props/PotentialProps.v
theories/Props/QuadProps.v
theories/Props/RefineProps.v
theories/Props/RegZeroExamples.v
theories/Props/RegZeroProps.v
theories/Props/RegZeroRest.v
theories/Props/ResponseExamples.v
theories/Props/ResponseProps.v
theories/Props/RestExamples.v
theories/Props/RestProps.v
theories/Props/RigidProps.v
theories/Props/SeqProps.v
theories/Props/SimProps.v
theories/Props/StepProps.v
theories/Props/StillExamples.v
theories/Props/StillProps.v
theories/Props/Tensor3Props.v
theories/Props/TensorProps.v
theories/Props/ThermProps.v
theories/Props/TractionProps.v
theories/Props/TwoProps.v
theories/Props/UpdateProps.v
theories/Props/WarmProps.v
theories/Props/WorkProps.v
theories/Spec/BellSpec.v
theories/Spec/CalmRSpec.v
theories/Spec/ConsistRSpec.v
theories/Spec/ConsistSpec.v
theories/Spec/ConvSpec.v
theories/Spec/EnergySpec.v
theories/Spec/EqSpec.v
theories/Spec/FlatSpec.v
theories/Spec/FloatGridSpec.v
theories/Spec/FloatLocSpec.v
theories/Spec/FloatSpec.v
theories/Spec/ForcingSpec.v
theories/Spec/GridSpec.v
theories/Spec/HeatLimitRSpec.v
theories/Spec/HeatLimitSpec.v
theories/Spec/IdealSpec.v
theories/Spec/InterpSpec.v
theories/Spec/LiveSpec.v
theories/Spec/MechSpec.v
theories/Spec/MomentumSpec.v
theories/Spec/MotionSpec.v
theories/Spec/Near1Spec.v
theories/Spec/NearSpec.v
theories/Spec/PlotSpec.v
theories/Spec/PotentialSpec.v
theories/Spec/QuadSpec.v
theories/Spec/RealRing.v
theories/Spec/RefineSpec.v
theories/Spec/ResponseSpec.v
theories/Spec/RestSpec.v
theories/Spec/SeqSpec.v
theories/Spec/SimSpec.v
theories/Spec/StepSpec.v
theories/Spec/TaylorSpec.v
theories/Spec/TensorSpec.v
theories/Spec/ThermSpec.v
theories/Spec/TractionSpec.v
theories/Spec/WarmSpec.v
theories/Spec/WorkSpec.v
