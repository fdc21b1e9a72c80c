-Q theories Verif
theories/Num.v
theories/Base.v
theories/Types.v
theories/Geo.v
theories/LevelModel.v
theories/Preproc.v
theories/Knn.v
theories/Triangulation.v
theories/LevelEst.v
theories/Estimators.v
theories/Sensors.v
theories/Smooth.v
theories/Postproc.v
theories/Trilat.v
theories/Likelihood.v
theories/Client.v
theories/NumReal.v
theories/NumFloat.v
theories/SortInst.v
theories/Lib.v
theories/Spec_Level.v
theories/Pf_History.v
theories/P_History.v
theories/NumOrd.v
theories/Ex.v
theories/Pf_Level.v
theories/P_Level.v
theories/LibR.v
theories/Spec_Preproc.v
theories/Pf_Preproc.v
theories/P_Preproc.v
theories/Spec_Client.v
theories/Pf_Client.v
theories/Pf_ClientInv.v
theories/Pf_ClientThrow.v
theories/Pf_Angle.v
theories/Pf_ClientTop.v
theories/P_Client.v
theories/P_Angle.v
theories/Spec_Outdoor.v
theories/Pf_Outdoor.v
theories/Pf_Gnss.v
theories/P_Outdoor.v
theories/Spec_Post.v
theories/Pf_Post.v
theories/P_Post.v
theories/Spec_Smooth.v
theories/Pf_Smooth.v
theories/Spec_SmoothT.v
theories/Pf_SmoothT.v
theories/P_Smooth.v
theories/Spec_Geo.v
theories/Pf_Geo.v
theories/P_Geo.v
theories/Spec_Sensors.v
theories/Pf_Sensors.v
theories/Pf_Cf.v
theories/Pf_Motion.v
theories/P_Sensors.v
theories/Spec_Knn.v
theories/Pf_Knn.v
theories/Pf_KnnEst.v
theories/P_Knn.v
theories/Spec_Tri.v
theories/Pf_Tri.v
theories/P_Tri.v
theories/Spec_Radio.v
theories/Pf_Radio.v
theories/Pf_Trilat.v
theories/P_Radio.v
theories/Spec_Del.v
theories/Pf_Del.v
theories/Pf_Cover.v
theories/Pf_DelDup.v
theories/P_Del.v
theories/SaTrilat.v
theories/Spec_SaTrilat.v
theories/Pf_SaTrilat.v
theories/P_SaTrilat.v
theories/Spec_Track.v
theories/Pf_Track.v
theories/P_Track.v
theories/SaPos.v
theories/Spec_SaPos.v
theories/Pf_SaPos.v
theories/Pf_SaSmooth.v
theories/P_SaPos.v
theories/SaPed.v
theories/Spec_SaPed.v
theories/Pf_SaPed.v
theories/P_SaPed.v
theories/SaCf.v
theories/Spec_SaCf.v
theories/Pf_SaCf.v
theories/Pf_Mag.v
theories/P_SaCf.v
theories/Tools.v
theories/Driver.v
theories/Spec_Tools.v
theories/Spec_Driver.v
theories/Pf_GeoDist.v
theories/Pf_Tools.v
theories/Pf_ToolsG.v
theories/Pf_ToolsF.v
theories/Pf_ToolsH.v
theories/Pf_Driver.v
theories/P_Tools.v
theories/P_Driver.v
theories/Json.v
theories/Spec_Json.v
theories/Pf_Json.v
theories/Pf_JsonF.v
theories/P_Json.v
theories/JsonDoc.v
theories/Spec_Doc.v
theories/Pf_Doc.v
theories/Pf_DocF.v
theories/P_Doc.v
theories/NumFin.v
theories/Spec_UB.v
theories/Pf_ClientUB.v
theories/Pf_DocUB.v
theories/P_UB.v
theories/Spec_Place.v
theories/Pf_Place.v
theories/P_Place.v
theories/Spec_Num.v
theories/Pf_Num.v
theories/P_Num.v
theories/Spec_Radius.v
theories/Pf_Radius.v
theories/P_Radius.v
theories/Spec_Offset.v
theories/Pf_Offset.v
theories/P_Offset.v
theories/Spec_Shift.v
theories/Pf_Shift.v
theories/P_Shift.v
theories/Spec_Fresh.v
theories/Pf_Fresh.v
theories/P_Fresh.v
theories/Outline.v
theories/Spec_Outline.v
theories/Pf_Wind.v
theories/Pf_Outline.v
theories/Pf_Outline2.v
theories/Pf_Outline3.v
theories/Pf_Outline4.v
theories/P_Outline.v
theories/Overflow.v
theories/Spec_Overflow.v
theories/Pf_Overflow.v
theories/P_Overflow.v
theories/Ray.v
theories/Spec_Ray.v
theories/Pf_Ray.v
theories/P_Ray.v
theories/Like.v
theories/Spec_Like.v
theories/Pf_Like.v
theories/P_Like.v
theories/Spec_Tilt.v
theories/Pf_Tilt.v
theories/P_Tilt.v
theories/Spec_PlaceK.v
theories/Pf_PlaceK.v
theories/P_PlaceK.v
theories/Spec_Settle.v
theories/Pf_Settle.v
theories/SaDemo.v
theories/Spec_SaDemo.v
theories/Pf_Pendulum.v
theories/P_Settle.v
theories/Pf_SaDemo.v
theories/P_SaDemo.v
theories/SaTest.v
theories/Pf_SaTest.v
theories/P_SaTest.v
theories/Spec_Conf.v
theories/Pf_Conf.v
theories/P_Conf.v
theories/SaPedTest.v
theories/Pf_SaPedTest.v
theories/P_SaPedTest.v
theories/Spec_Poly.v
theories/Pf_Lin.v
theories/Pf_Poly.v
theories/Pf_LinSing.v
theories/Pf_PolySm.v
theories/P_Poly.v
theories/Vec.v
theories/Spec_Vec.v
theories/P_Vec.v
theories/Spec_SaObj.v
theories/P_SaObj.v
theories/Spec_Dist.v
theories/P_Dist.v
theories/SaBeacon.v
theories/Spec_SaBeacon.v
theories/P_SaBeacon.v
theories/SaText.v
theories/Spec_SaText.v
theories/Pf_SaText.v
theories/P_SaText.v
theories/NumExact.v
theories/Spec_Mean.v
theories/Pf_Mean.v
theories/P_Mean.v
theories/Spec_States.v
theories/P_States.v
theories/Spec_Sats.v
theories/P_Sats.v
theories/Spec_Compass.v
theories/P_Compass.v
