-Q theories Verif
theories/M_Regex.v
theories/S_Regex.v
theories/L_Regex.v
theories/M_Store.v
theories/S_Store.v
theories/L_Store.v
theories/L_StoreOut.v
theories/L_StoreThm.v
theories/P_Store.v
theories/M_Buffers.v
theories/S_Buffers.v
theories/L_Buffers.v
theories/P_Buffers.v
theories/M_Param.v
theories/S_Param.v
theories/L_Param.v
theories/P_Param.v
theories/M_Tree.v
theories/S_Tree.v
theories/L_Tree.v
theories/L_TreeXml.v
theories/L_TreeCar.v
theories/P_Tree.v
theories/M_Controls.v
theories/S_Controls.v
theories/L_Controls.v
theories/M_Laptime.v
theories/S_Laptime.v
theories/L_Pack.v
theories/L_Pack2.v
theories/L_Pack3.v
theories/L_Pack4.v
theories/P_Controls.v
theories/S_Colloc.v
theories/L_Colloc.v
theories/L_Colloc2.v
theories/L_Colloc3.v
theories/P_Laptime.v
theories/M_Kerb.v
theories/S_Kerb.v
theories/L_Kerb.v
theories/P_Kerb.v
theories/M_Mesh.v
theories/S_Mesh.v
theories/L_Mesh.v
theories/P_Mesh.v
theories/M_Vec.v
theories/M_Road.v
theories/S_Road.v
theories/L_Road.v
theories/P_Road.v
theories/M_Errors.v
theories/S_Errors.v
theories/L_Errors.v
theories/P_Errors.v
theories/M_Track.v
theories/S_Track.v
theories/L_Track.v
theories/L_Track2.v
theories/P_Track.v
theories/M_Arcs.v
theories/S_Arcs.v
theories/L_Arcs.v
theories/L_Arcs2.v
theories/L_Arcs3.v
theories/P_Arcs.v
theories/M_Tire.v
theories/L_Tire.v
theories/P_Tire.v
theories/M_Car.v
theories/S_Car.v
theories/L_Car.v
theories/P_Car.v
theories/M_Vehicle.v
theories/S_Vehicle.v
theories/P_Vehicle.v
theories/M_Balance.v
theories/P_Balance.v
theories/M_Fleet.v
theories/S_Fleet.v
theories/L_Fleet.v
theories/P_Fleet.v
theories/M_Steady.v
theories/S_Steady.v
theories/L_Steady.v
theories/P_Steady.v
theories/M_Options.v
theories/S_Options.v
theories/L_Options.v
theories/P_Options.v
theories/M_Alias.v
theories/S_Alias.v
theories/P_Alias.v
theories/M_Preproc.v
theories/S_Preproc.v
theories/L_Preproc.v
theories/P_Preproc.v
theories/M_MinCurv.v
theories/S_MinCurv.v
theories/L_MinCurv.v
theories/P_MinCurv.v
theories/M_Lapfile.v
theories/S_Lapfile.v
theories/L_Lapfile.v
theories/P_Lapfile.v
theories/M_Python.v
theories/S_Python.v
theories/P_Python.v
theories/M_Kart6.v
theories/S_Kart6.v
theories/L_Kart6.v
theories/P_Kart6.v
theories/M_Sens.v
theories/S_Sens.v
theories/P_Sens.v
theories/P_Observe.v
theories/M_Frames.v
theories/S_Frames.v
theories/P_Frames.v
theories/M_Limits.v
theories/S_Limits.v
theories/P_Limits.v
theories/M_Export.v
theories/S_Export.v
theories/P_Export.v
theories/M_Outputs.v
theories/S_Outputs.v
theories/P_Outputs.v
theories/M_Derived.v
theories/S_Derived.v
theories/P_Derived.v
theories/M_Flow.v
theories/S_Flow.v
theories/P_Flow.v
theories/M_Iterate.v
theories/S_Iterate.v
theories/L_Iterate.v
theories/P_Iterate.v
theories/M_Feasible.v
theories/S_Feasible.v
theories/P_Feasible.v
theories/M_Estimate.v
theories/S_Estimate.v
theories/P_Estimate.v
theories/M_Rounded.v
theories/S_Rounded.v
theories/L_Rounded.v
theories/P_Rounded.v
theories/P_RoundedMesh.v
theories/P_Digits.v
theories/M_KartTree.v
theories/S_KartTree.v
theories/L_KartTree.v
theories/P_KartTree.v
theories/S_Pattern.v
theories/L_Pattern.v
theories/P_Pattern.v
theories/S_Drawn.v
theories/P_Drawn.v
theories/M_Solve.v
theories/S_Solve.v
theories/P_Solve.v
theories/M_Query.v
theories/S_Query.v
theories/L_Query.v
theories/P_Query.v
theories/M_SteadyScalar.v
theories/S_SteadyScalar.v
theories/P_SteadyScalar.v
theories/M_F1.v
theories/S_F1.v
theories/L_F1.v
theories/P_F1.v
theories/S_Newton.v
theories/P_Newton.v
theories/M_KartCar.v
theories/S_KartCar.v
theories/P_KartCar.v
theories/M_CircuitKerbs.v
theories/S_CircuitKerbs.v
theories/P_CircuitKerbs.v
theories/S_F1Wheels.v
theories/P_F1Wheels.v
theories/M_PyTrack.v
theories/S_PyTrack.v
theories/P_PyTrack.v
theories/S_Hill.v
theories/P_Hill.v
theories/S_KartGrip.v
theories/P_KartGrip.v
theories/S_KartEnergy.v
theories/P_KartEnergy.v
theories/M_Propagate.v
theories/S_Propagate.v
theories/P_Propagate.v
theories/M_RoundedTime.v
theories/S_RoundedTime.v
theories/P_RoundedTime.v
theories/M_RealLap.v
theories/S_RealLap.v
theories/L_RealLap.v
theories/P_RealLap.v
theories/S_LapLimits.v
theories/P_LapLimits.v
theories/M_RateLap.v
theories/S_RateLap.v
theories/P_RateLap.v
theories/S_Freedom.v
theories/P_Freedom.v
theories/S_Moved.v
theories/P_Moved.v
theories/S_Circle.v
theories/P_Circle.v
theories/S_Sector.v
theories/P_Sector.v
theories/S_RoundedCost.v
theories/P_RoundedCost.v
theories/P_CircleRate.v
theories/S_RateRest.v
theories/P_RateRest.v
theories/P_Cases.v
theories/P_LapCases.v
theories/S_KartLoads.v
theories/P_KartLoads.v
