-Q theories Verif
theories/Base.v
theories/Quat.v
theories/SpecQuat.v
theories/QuatProofs.v
theories/NdArray.v
theories/Frames.v
theories/SpecForest.v
theories/FrameProofs.v
theories/Matcher.v
theories/WalkProofs.v
theories/SpecLookup.v
theories/LookupProofs.v
theories/RegistryProofs.v
theories/Examples.v
theories/PropForest.v
theories/MovingProofs.v
theories/TimeProofs.v
theories/CtorProofs.v
theories/InverseProofs.v
theories/RouteProofs.v
theories/PropLookup.v
theories/PropMoving.v
theories/SpecConsist.v
theories/RelProofs.v
theories/PropConsist.v
theories/Transform.v
theories/SpecArray.v
theories/NdProofs.v
theories/RotProofs.v
theories/ArrProofs.v
theories/ArrTransProofs.v
theories/ArrStaticProofs.v
theories/PropTransform.v
theories/PropRotate.v
theories/AxisProofs.v
theories/PropAxisMoving.v
theories/Utils.v
theories/UtilsProofs.v
theories/EulerProofs.v
theories/PropUtils.v
theories/Coord.v
theories/PropCoord.v
theories/Velocity.v
theories/VelProofs.v
theories/PropVelocity.v
theories/SpecMotion.v
theories/MotionProofs.v
theories/PropAngular.v
theories/VelFrames.v
theories/VelFrameProofs.v
theories/PropVelFrames.v
theories/VelExamples.v
theories/Estim.v
theories/SpecEstim.v
theories/EstimProofs.v
theories/SvdExist.v
theories/ArcProofs.v
theories/IcpProofs.v
theories/PropEstim.v
theories/TopLevel.v
theories/TopProofs.v
theories/SpecTop.v
theories/TopStep.v
theories/PropTop.v
theories/SpecSeries.v
theories/SeriesProofs.v
theories/PropSeries.v
theories/SingleProofs.v
theories/PropPose.v
theories/PropCoordTop.v
theories/PropAxis.v
theories/RosMsg.v
theories/PropRosMsg.v
theories/Rosbag.v
theories/PropRosbag.v
theories/PropCache.v
theories/Broadcast.v
theories/PropBroadcast.v
theories/PropMarker.v
theories/Viz.v
theories/PropViz.v
theories/TopEstim.v
theories/PropTopEstim.v
theories/PropTopFit.v
theories/Spin.v
theories/PropSpin.v
theories/TfTree.v
theories/PropTfTree.v
theories/FrameCtors.v
theories/PropCtors.v
theories/Qinterp.v
theories/PropQinterp.v
theories/PropAccess.v
theories/TopVel.v
theories/PropTopVel.v
theories/Tf2.v
theories/Tf2Proofs.v
theories/Tf2Walk.v
theories/SpecTf2.v
theories/Tf2Load.v
theories/Tf2Agree.v
theories/PropTf2.v
theories/Tf2Examples.v
theories/Rotate.v
theories/PropRotateAll.v
theories/Plot.v
theories/PropPlot.v
theories/Optitrack.v
theories/PropOptitrack.v
theories/Export.v
theories/PropDataset.v
theories/PropRefuse.v
theories/RotVec.v
theories/PropRotVec.v
theories/PropRotOut.v
theories/DateTime.v
theories/PropDateTime.v
theories/RosUtils.v
theories/PropRosUtils.v
theories/Filter.v
theories/FilterProofs.v
theories/PropFilter.v
theories/FreqProofs.v
theories/ResponseProofs.v
theories/PropResponse.v
theories/Squad.v
theories/SquadProofs.v
theories/PropSquad.v
theories/PropSquadEx.v
theories/Taylor.v
theories/Spline.v
theories/SplineProofs.v
theories/SplineError.v
theories/PropConverge.v
theories/LookVelProofs.v
theories/PropLookVel.v
theories/PropLookVelEx.v
theories/NanArr.v
theories/PropNan.v
theories/LookVelOpts.v
theories/PropLookOpts.v
theories/PropBatch.v
theories/PropBatchEx.v
theories/PropAxisFour.v
theories/TestMotion.v
theories/PropTestMotion.v
theories/PropTestMotionEx.v
theories/NanQuat.v
theories/PropNanQuat.v
theories/PropTopVelCoords.v
theories/QuatDist.v
theories/SquadError.v
theories/PropInterp.v
theories/PropInterpDir.v
theories/PropInterpEx.v
theories/ClosedMoving.v
theories/ClosedTransform.v
theories/ClosedConsist.v
theories/ClosedLookup.v
theories/ClosedCtors.v
theories/ClosedPose.v
theories/ClosedSeries.v
theories/ClosedTopVel.v
theories/ClosedVelFrames.v
theories/ClosedLookVel.v
theories/ClosedViz.v
theories/ClosedNan.v
theories/ClosedOpts.v
theories/PropClock.v
theories/PropClockVel.v
theories/PropClockEx.v
theories/PropLength.v
theories/PropLengthEx.v
theories/PropLocal.v
theories/PropColour.v
theories/PropTopics.v
theories/PropSign.v
theories/PropSignArr.v
theories/PropSignVel.v
theories/PropSignTop.v
theories/PropSignEx.v
theories/PropPoseLabels.v
theories/PropNanMore.v
theories/PropOrder.v
theories/PropRename.v
theories/PropNames.v
