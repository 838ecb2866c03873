-Q theories Verif
theories/F32.v
theories/F32_lemmas.v
theories/Types.v
theories/Index.v
theories/Neighbor.v
theories/Index_proofs.v
theories/Index_float.v
theories/Neighbor_proofs.v
theories/P_Index.v
theories/P_Neighbor.v
theories/Voxel.v
theories/Serialize.v
theories/Serialize_proofs.v
theories/P_Serialize.v
theories/Assoc.v
theories/Assoc_lemmas.v
theories/Layer.v
theories/Proto.v
theories/LayerIO.v
theories/Proto_proofs.v
theories/LayerIO_proofs.v
theories/P_LayerIO.v
theories/Heap.v
theories/Layer_spec.v
theories/Heap_proofs.v
theories/F32_err.v
theories/Merge.v
theories/Merge_proofs.v
theories/P_Layer.v
theories/P_Merge.v
theories/Threads.v
theories/Threads_proofs.v
theories/Alloc_proofs.v
theories/P_Threads.v
theories/Queue.v
theories/Queue_spec.v
theories/Queue_proofs.v
theories/P_Queue.v
theories/Update.v
theories/Update_spec.v
theories/Update_proofs.v
theories/Dist_proofs.v
theories/Lock_proofs.v
theories/P_Update.v
theories/Ray.v
theories/Ray_spec.v
theories/Ray_proofs.v
theories/Cross_proofs.v
theories/P_Ray.v
theories/Marching.v
theories/MeshInt.v
theories/Mesh_spec.v
theories/Mesh_proofs.v
theories/Water_proofs.v
theories/Vertex_proofs.v
theories/MeshInt_proofs.v
theories/Connect_proofs.v
theories/MeshLayer_proofs.v
theories/P_Mesh.v
theories/Planning.v
theories/Esdf.v
theories/Esdf_spec.v
theories/Esdf_proofs.v
theories/Esdf_float.v
theories/Esdf_range.v
theories/Esdf_grid.v
theories/Esdf_open.v
theories/Esdf_batch.v
theories/Esdf_term.v
theories/Esdf_total.v
theories/Esdf_step.v
theories/P_Esdf.v
theories/Flags.v
theories/Flags_spec.v
theories/Flags_proofs.v
theories/P_Flags.v
theories/LayerUtils.v
theories/LayerUtils_spec.v
theories/LayerUtils_proofs.v
theories/Center_proofs.v
theories/P_LayerUtils.v
theories/Interp.v
theories/Interp_spec.v
theories/Interp_float.v
theories/Interp_axis.v
theories/Interp_proofs.v
theories/P_Interp.v
theories/Sphere_spec.v
theories/Sphere_float.v
theories/Sphere_proofs.v
theories/P_Sphere.v
theories/Timing.v
theories/Timing_spec.v
theories/Timing_proofs.v
theories/P_Timing.v
theories/Eval.v
theories/Eval_spec.v
theories/Eval_proofs.v
theories/P_Eval.v
theories/RosMsg.v
theories/RosMsg_spec.v
theories/RosMsg_proofs.v
theories/P_RosMsg.v
theories/RosQueue.v
theories/RosQueue_spec.v
theories/RosQueue_proofs.v
theories/P_RosQueue.v
theories/Intensity.v
theories/Intensity_spec.v
theories/Intensity_proofs.v
theories/P_Intensity.v
theories/Sim.v
theories/Sim_spec.v
theories/Sim_proofs.v
theories/Sim_geom.v
theories/P_Sim.v
theories/MeshMsg.v
theories/MeshMsg_spec.v
theories/MeshMsg_proofs.v
theories/MeshReach_proofs.v
theories/MeshView_proofs.v
theories/P_MeshMsg.v
theories/Icp.v
theories/Icp_spec.v
theories/Icp_proofs.v
theories/P_Icp.v
theories/EsdfOcc.v
theories/EsdfOcc_spec.v
theories/EsdfOcc_view.v
theories/EsdfOcc_proofs.v
theories/EsdfOcc_batch.v
theories/P_EsdfOcc.v
theories/Weight_spec.v
theories/P_Weight.v
theories/Vec_proofs.v
theories/Facing_spec.v
theories/Facing_proofs.v
theories/P_Facing.v
theories/RayEnds_spec.v
theories/RayEnds_proofs.v
theories/P_RayEnds.v
theories/Cloud.v
theories/Cloud_spec.v
theories/Cloud_proofs.v
theories/P_Cloud.v
theories/Mean_spec.v
theories/Mean_proofs.v
theories/P_Mean.v
theories/Total_spec.v
theories/Total_proofs.v
theories/P_Total.v
theories/OccCloud.v
theories/OccCloud_spec.v
theories/OccCloud_proofs.v
theories/P_OccCloud.v
theories/Grad.v
theories/Grad_spec.v
theories/Grad_proofs.v
theories/P_Grad.v
theories/Slice.v
theories/Slice_spec.v
theories/Slice_proofs.v
theories/P_Slice.v
theories/ColorMap.v
theories/ColorMap_spec.v
theories/ColorMap_proofs.v
theories/P_ColorMap.v
theories/Camera.v
theories/Camera_spec.v
theories/Camera_float.v
theories/P_Camera.v
theories/Ply.v
theories/Ply_spec.v
theories/Ply_proofs.v
theories/P_Ply.v
theories/VoxCloud.v
theories/VoxCloud_spec.v
theories/VoxCloud_proofs.v
theories/VoxCloud_color.v
theories/P_VoxCloud.v
theories/Connect_spec.v
theories/Connect_normals.v
theories/VoxSlice_proofs.v
theories/P_VoxSlice.v
theories/Raise_spec.v
theories/Raise_proofs.v
theories/P_Raise.v
theories/Transform.v
theories/Transform_spec.v
theories/Transform_proofs.v
theories/Transform_blocks.v
theories/Transform_marks.v
theories/Transform_same.v
theories/P_Transform.v
theories/Robot_spec.v
theories/Robot_proofs.v
theories/P_Robot.v
theories/Bounds.v
theories/Bounds_spec.v
theories/Bounds_proofs.v
theories/P_Bounds.v
theories/WeightQ.v
theories/WeightQ_proofs.v
theories/P_WeightQ.v
theories/ServerIO.v
theories/ServerIO_spec.v
theories/ServerIO_proofs.v
theories/P_ServerIO.v
theories/Intake.v
theories/P_Intake.v
theories/MeshVis.v
theories/MeshVis_spec.v
theories/MeshVis_proofs.v
theories/P_MeshVis.v
theories/EsdfSync.v
theories/EsdfSync_spec.v
theories/EsdfSync_proofs.v
theories/P_EsdfSync.v
theories/SimView.v
theories/SimView_spec.v
theories/SimView_proofs.v
theories/P_SimView.v
theories/IntServer.v
theories/IntServer_spec.v
theories/IntServer_proofs.v
theories/P_IntServer.v
theories/SimNoise.v
theories/SimNoise_spec.v
theories/SimNoise_proofs.v
theories/P_SimNoise.v
theories/SimHit_spec.v
theories/SimHit_proofs.v
theories/SimBox_proofs.v
theories/SimCyl_proofs.v
theories/P_SimHit.v
theories/MeshOps.v
theories/P_MeshOps.v
theories/EvalPoses.v
theories/P_EvalPoses.v
theories/Coords.v
theories/Coords_spec.v
theories/P_Coords.v
theories/HierRay.v
theories/HierRay_spec.v
theories/P_HierRay.v
theories/MeshColor_spec.v
theories/MeshColor_proofs.v
theories/P_MeshColor.v
theories/LayerPly.v
theories/LayerPly_spec.v
theories/LayerPly_proofs.v
theories/P_LayerPly.v
theories/GtEval.v
theories/GtEval_spec.v
theories/GtEval_rms.v
theories/GtEval_proofs.v
theories/P_GtEval.v
theories/MeshStore.v
theories/MeshStore_spec.v
theories/P_MeshStore.v
theories/HashArray.v
theories/HashArray_spec.v
theories/P_HashArray.v
theories/IdColors.v
theories/IdColors_spec.v
theories/P_IdColors.v
theories/Params.v
theories/Params_spec.v
theories/P_Params.v
theories/Kabsch.v
theories/Kabsch_spec.v
theories/Kabsch_proofs.v
theories/P_Kabsch.v
theories/IcpInfo.v
theories/IcpInfo_spec.v
theories/P_IcpInfo.v
