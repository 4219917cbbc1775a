-Q theories Verif
theories/Num.v
theories/Loops.v
theories/Spec_Ldu.v
theories/Ldu.v
theories/LduFacts.v
theories/LduDom.v
theories/LduInv.v
theories/LduRows.v
theories/Props_Ldu.v
theories/SolveExt.v
theories/Spec_Assembly.v
theories/Assembly.v
theories/Spec_Islands.v
theories/Islands.v
theories/IslandSolve.v
theories/Props_Network.v
theories/StepModel.v
theories/Spec_Step.v
theories/StepFacts.v
theories/StepBudget.v
theories/StepConv.v
theories/StepThms.v
theories/StepFactor.v
theories/StepCap.v
theories/Props_Step.v
theories/Links.v
theories/Props_Links.v
theories/Bus.v
theories/Spec_Bus.v
theories/BusFacts.v
theories/BusRoles.v
theories/Props_Bus.v
theories/Trip.v
theories/TripFacts.v
theories/Props_Trip.v
theories/Props_Switch.v
theories/Ord.v
theories/MathUtil.v
theories/Props_Math.v
theories/MsgQueue.v
theories/Spec_Queue.v
theories/MsgQueueFacts.v
theories/MsgQueueConc.v
theories/Spec_QueueConc.v
theories/MsgQueueConcFacts.v
theories/Props_Queue.v
theories/Round.v
theories/MsgFilter.v
theories/Spec_Filter.v
theories/MsgFilterFacts.v
theories/Props_Filter.v
theories/Interp.v
theories/Spec_Interp.v
theories/InterpFacts.v
theories/BilinearFacts.v
theories/Props_Interp.v
theories/Brent.v
theories/BrentFacts.v
theories/Props_Brent.v
theories/Pid.v
theories/Props_Pid.v
theories/F32.v
theories/Sensor.v
theories/Props_Sensor.v
theories/StepLog.v
theories/Spec_StepLog.v
theories/StepLogFacts.v
theories/Props_StepLog.v
theories/Intersect.v
theories/Spec_Intersect.v
theories/Props_Intersect.v
theories/BasicLinks.v
theories/Spec_BasicLinks.v
theories/Props_BasicLinks.v
theories/Props_BasicFlow.v
theories/Props_BasicCtl.v
theories/Props_BasicLaws.v
theories/Jumper.v
theories/Spec_Jumper.v
theories/Props_Jumper.v
theories/Orchestrator.v
theories/Spec_Orchestrator.v
theories/Props_Orchestrator.v
theories/Fluid.v
theories/Spec_Fluid.v
theories/Props_Fluid.v
theories/FluidNode.v
theories/Spec_FluidNode.v
theories/Props_FluidNode.v
theories/Props_FluidNet.v
theories/Props_FluidThrough.v
theories/Fits.v
theories/Spec_Fits.v
theories/Props_Fits.v
theories/FluidTypes.v
theories/Props_FitInverse.v
theories/FluidTypesQ.v
theories/Props_FluidTypes.v
theories/Spec_FluidProps.v
theories/Props_FluidProps.v
theories/Dyn.v
theories/Spec_Dyn.v
theories/Props_Dyn.v
theories/Props_DynEuler.v
theories/Props_DynBody.v
theories/Props_DynInteg.v
theories/DynMem.v
theories/Props_DynMem.v
theories/Props_FluidOverflow.v
theories/Valve.v
theories/Spec_Valve.v
theories/Props_Valve.v
theories/Props_ValveMove.v
theories/Thermal.v
theories/Props_Thermal.v
theories/Props_ThermalDev.v
theories/Battery.v
theories/Props_Battery.v
theories/Converter.v
theories/Props_Converter.v
theories/Props_ConverterPower.v
theories/UserLoad.v
theories/Props_UserLoad.v
theories/Props_LoadSwitch.v
theories/Props_Selector.v
theories/FluidFlow.v
theories/Props_FluidFlow.v
theories/Props_FluidMix.v
theories/FluidValves.v
theories/Props_FluidValves.v
theories/Props_ReliefValve.v
theories/Props_BalancedPrv.v
theories/FluidTrace.v
theories/Props_FluidTrace.v
theories/Props_LoadVerdict.v
theories/FluidHx.v
theories/Props_FluidHx.v
theories/Props_CondHx.v
theories/FluidCore.v
theories/Props_FluidSource.v
theories/Props_FluidControl.v
theories/FluidSorb.v
theories/Props_FluidSorb.v
theories/Props_FluidBed.v
theories/Props_FluidTight.v
theories/FluidSources.v
theories/Props_FluidSources.v
theories/Props_FluidPhases.v
theories/FluidReact.v
theories/Props_FluidReact.v
theories/Props_FluidCrew.v
theories/Props_FluidLeak.v
theories/FluidTank.v
theories/Props_FluidTank.v
theories/Props_FluidBalloon.v
theories/FluidAccum.v
theories/Props_FluidAccum.v
theories/Props_FluidAccumEdit.v
theories/Props_FluidAccumGas.v
theories/Props_FluidAccumMore.v
theories/Props_FluidLight.v
theories/Thermostat.v
theories/Props_Thermostat.v
theories/Detector.v
theories/Props_Detector.v
theories/Props_Smoke.v
theories/FluidFan.v
theories/Props_FluidFan.v
theories/Props_FanPower.v
theories/Props_Head.v
theories/Turbine.v
theories/Props_Turbine.v
theories/Props_Thermostat2.v
theories/Props_Turbine2.v
theories/Motor.v
theories/Props_Motor.v
theories/Props_PwmMotor.v
theories/Props_PumpCtl.v
theories/HiFi.v
theories/Props_HiFi.v
theories/Props_HiFiValve.v
theories/DistIf.v
theories/Props_DistIf.v
theories/Props_DistFlow.v
theories/Props_DistStep.v
theories/Props_Smoke2.v
theories/Rocket.v
theories/Props_Rocket.v
theories/Props_RocketFire.v
theories/SuperNet.v
theories/Props_SuperNet.v
theories/Props_Joints.v
theories/FireSource.v
theories/Props_FireSource.v
theories/MultiSep.v
theories/Props_MultiSep.v
theories/RealDiode.v
theories/Props_RealDiode.v
theories/PowerBus.v
theories/Props_PowerBus.v
theories/Shadow.v
theories/Props_Shadow.v
theories/Props_PowerBus2.v
theories/ElectIf.v
theories/Props_ElectIf.v
theories/Props_Shadow2.v
theories/Ips.v
theories/Props_Ips.v
theories/PvString.v
theories/Props_PvString.v
theories/Props_PvString2.v
