# Formal model of voxblox in Rocq

## Layout

- `properties.jsonl` — the properties, in English.
- `rocq/theories/` — the model, the proofs and the property theorems.
  - `F32.v` IEEE-754 single/double arithmetic as the code uses it (Flocq).
  - one model file per part of the code (no proofs), one `*_proofs.v` file,
    and one `P_*.v` file holding only the property theorems (closed by
    `exact`), their non-vacuity examples and `Print Assumptions`.
- `seeded/LOG.jsonl` — wrong programs tried against the theorems.
- `MANIFEST.json` — property to theorem map.

## Modelling conventions

- Floating point: `float` is Flocq `binary32`, `double` is `binary64`, each
  C++ operation is one correctly rounded operation (x86-64 SSE, no
  `-ffast-math`, no FMA: /repo/voxblox/CMakeLists.txt sets no such flag).
  Literals such as `0.5` are doubles and promote as in C++.
  NaN payloads produced by arithmetic are not claimed.
- Float to integer casts out of range, reads of uninitialised data,
  out-of-bounds accesses and null dereferences are undefined behaviour and a
  separate outcome of the model (`None`/`UB`). CHECK and LOG(FATAL) are an
  abort outcome.
- Integers are `Z`; where wrap-around matters it is written in the model.
- Some theorems are about an exact (real or rational) reading of the
  arithmetic; their names and comments say so.

## Trusted base

Coq's kernel; the fidelity of the model to the C++ (each definition cites
its source lines); Flocq's definitions of IEEE operations for float-valued
statements. Axioms: only those of Coq's standard library of reals and
classical logic, as listed by `Print Assumptions` under each theorem.

## Plan per property

- **C01 Global voxel index splits into block and local index and recombines** — Index.v: the index functions, the float path in binary32 (Flocq), the mask path as Z.land with the INT_MIN offset. Proof: exactness of the float product for |g| <= 2^24 and vps = 2^k; land with 2^k-1 = mod 2^k. Beyond 2^24 a witness refutes the full statement.
- **C02 Linear index and 3D voxel index are a bijection inside a block** — Index.v: linear/3D index with Z.quot/Z.rem (std::div). Proof: Euclidean division, any vps.
- **C03 Looking a voxel up by coordinates never leaves the block** — Index.v: truncated lookup in binary32 with a UB outcome when the float does not fit an int. Proof: clamp bounds for every float.
- **C04 The centre of a voxel maps back to that voxel** — Index.v: centre in double then float; float rounding error analysis with Flocq relative error lemmas.
- **C05 Neighbour lookup across block borders equals global index arithmetic** — Neighbor.v: the carry while-loops as fuelled recursion with an error outcome; theorem excludes the error.
- **C06 The 26-neighbourhood is complete, symmetric and has the right distances** — Neighbor.v: the two tables; finite check lifted with forallb_forall.
- **C07 TSDF, occupancy and intensity blocks serialize losslessly** — Serialize.v: word packing with Z.lor/Z.shiftl, memcpy as bits_of_b32. Round trip by list induction, bit lemmas.
- **C08 ESDF blocks serialize losslessly** — Serialize.v: sign-extending packing as written. Refutation witness for the parent and a _partial theorem for the parents that survive.
- **C09 Serialized data of the wrong length is rejected** — Serialize.v: deserialize returns an abort outcome on a length mismatch.
- **C10 A saved layer loads back unchanged** — Proto.v/LayerIO.v: varint and protobuf wire format, framing, save and load over a byte list. Round trip by induction over blocks.
- **C11 A truncated map file is never reported as loaded** — LayerIO.v: loading every proper prefix returns false.
- **C12 Loading finds its layer in a file holding several layers** — LayerIO.v: several layers appended, do-while of LoadBlocksFromFile.
- **C13 Block merging strategies do what they say** — Layer.v: addBlockFromProto over a block map.
- **C14 A layer is a map from block index to block under any history** — Layer.v: state machine over a finite map with a heap of blocks; refinement to a functional map over any op list.
- **C15 Removing distant blocks removes exactly the distant blocks** — Layer.v: removal loop; filter characterisation, float comparison.
- **C16 Copying a layer is a deep and complete copy** — Layer.v: copy constructor; voxel equality proved, flag equality refuted by witness.
- **C17 Merging two voxels combines their evidence** — Merge.v: mergeVoxelAIntoVoxelB in binary32; exact algebra over reals for the mean, float facts for neutrality.
- **C18 Merging layer A into layer B transfers all of A** — Merge.v: mergeBlock, mergeLayerAintoLayerB; refutations for has_data=false and for differing block layouts, positive theorem otherwise.
- **C19 Every point of a cloud is processed exactly once under any thread schedule** — Threads.v: fetch_add counter, any interleaving of n threads; permutation lemmas for mixed/sorted order.
- **C20 The merged integrator bundles and distributes each valid point exactly once** — Merged.v: bundling over a list of points, thread partition arithmetic.
- **C21 Concurrent voxel allocation yields one block per index and loses none** — Alloc.v: small-step interleaving semantics with lock, temp block map and layer.
- **C22 TSDF voxels stay truncated and weights stay bounded** — Update.v: updateTsdfVoxel in binary32 with std::min/std::max semantics; case analysis on NaN, infinities and overflow.
- **C23 Occupancy log-odds stay clamped and observed is monotone** — Update.v: updateOccupancyVoxel in binary32.
- **C24 Ray casting enumerates a connected chain of voxels** — Ray.v: the stepping automaton in binary32 including NaN and uninitialised members; Ray_proofs.v: induction over the steps.
- **C25 Ray casting reaches the end voxel through voxels the ray crosses** — Cross_proofs.v: error bound on the float crossing times by induction, order invariant of the crossings, geometry over the reals; refuted for rays with a vanishing component and ends near a border.
- **C26 Approximate hash set answers about stored elements are right** — Queue.v: slot array; history invariants.
- **C27 Resetting the approximate hash set empties it** — Queue.v: refuted for hash 0, proved for non-zero hashes over any history.
- **C28 The bucket queue is a FIFO-within-priority queue that loses nothing** — Queue.v: list of buckets; refinement to the list of pending elements with their bucket.
- **C29 ESDF propagation leaves fixed and unobserved voxels alone** — Esdf.v: processOpenSet/processRaiseSet over a layer; frame relation by induction over pops (Esdf_proofs.v).
- **C30 ESDF propagation is sound** — Esdf.v: per-step relation (Esdf_step.v), side preservation (Esdf_float.v); refutations by evaluation.
- **C31 Occupancy ESDF distances are distances of real paths to obstacles** — EsdfOcc.v: the occupancy integrator; float path lengths (EsdfOcc_spec.v); invariant of the open set on the map from indices to voxels (EsdfOcc_view.v) carried to layers with termination (EsdfOcc_proofs.v, EsdfOcc_batch.v); incremental updates refuted by evaluation.
- **C32 A batch ESDF update can always be run** — Esdf.v: API history leading to the abort, by evaluation; termination from a well-founded measure on float distances and the queue (Esdf_term.v, Esdf_total.v).
- **C33 Marching cubes only uses interpolated edges** — Marching.v, Mesh_proofs.v: tables verbatim, float corner values; finite sweep over the 256 patterns lifted to all floats, NaN witness.
- **C34 The extracted surface is watertight between neighbouring cubes** — Water_proofs.v: finite sweep over the sign patterns of face-sharing cubes, lifted to every scalar field on Z^3.
- **C35 Mesh extraction visits every cube of a block exactly once** — MeshInt.v, MeshInt_proofs.v: loop nest as a list; NoDup and membership for any voxels_per_side.
- **C36 Cubes on block borders use the right voxels of neighbouring blocks** — MeshInt_proofs.v: border and interior corner lookups equal the lookup by global index.
- **C37 Interpolated surface vertices lie on the cube edge** — Vertex_proofs.v: rounding-error analysis of the float interpolation against the real segment.
- **C38 Mesh arrays stay consistent** — MeshInt_proofs.v, MeshLayer_proofs.v: induction over cubes, concatenation and getMesh.
- **C39 Connecting meshes deduplicates vertices and keeps triangles** — MeshInt.v, Connect_proofs.v: createConnectedMesh as a fold with a cell map, invariant over the vertices processed.
- **C40 Interpolation is trilinear** — Interp.v: 8x8 table over R; ring/convexity.
- **C41 Interpolation uses the eight voxels around the point** — Interp.v: setIndexes with float comparisons; integer address arithmetic.
- **C42 Centering a layer is a rigid shift** — LayerUtils.v: centroid in binary32, truncating cast, re-insertion; bound of a float sum of any length.
- **C43 No map update is lost between integration, meshing and ESDF updates** — Flags.v: 3-bit flags per block, op histories.
- **C44 Layer comparison is an equivalence on content** — LayerUtils.v: comparison in floats; symmetric; NaN refutes reflexivity.
- **C45 Layer evaluation reports consistent statistics** — Eval.v models computeVoxelError and evaluateLayersRmse with its float and double arithmetic and the error layer. A tally invariant over the voxel loops gives the counts, the maximum and the sum of squares; the RMSE is bounded by rounding analysis (Eval_*.v). min_error is shown to be always 0.
- **C46 Clearing or filling a sphere affects exactly the voxels in the sphere** — Planning.v models the three float loops of the sphere, the allocation and the two voxel rules. The loop values are shown exact below 2^16 voxels, the float norm is bounded, and the list is compared with the real sphere; fill and clear are shown to apply their rule to exactly the listed voxels by induction over the list (Sphere_*.v).
- **C47 Blended colours are valid colours between the inputs** — Color.v: real-valued blend and rounding; float caveat.
- **C48 Timing statistics are those of the recorded samples** — Timing.v models the accumulator (sum, ring of fifty samples, rolling sum, min, max in double) and the tag map. Statistics are bounded against exact sums with the error of every addition by induction over the samples; handles, tags and samples are followed through every history of calls (Timing_*.v). Witnesses for max_ starting at DBL_MIN, for the rolling sum keeping rounding errors, and for the int counters.
- **C49 A layer message applied to a layer has the announced effect** — RosMsg.v models serializeLayerAsMsg and deserializeMsgToLayer with their checks. One block is applied by cases on the action, a message by induction over its blocks; the size comparison is settled by rounding analysis (RosMsg_*.v). Merging is refuted by a witness.
- **C50 A subscriber's map follows the published map** — RosMsg.v: a server with its subscribers, and events for integration, loading, meshing, removal, clearing, publishing, receiving, joining and leaving. An invariant (all blocks of the map carry the map flag, no subscriber has a block the map lacks) is kept by every event; removal and received maps give refuting histories.
- **C51 Point clouds are integrated in order, at most once, from a bounded queue** — RosQueue.v models insertPointcloud and getNextPointcloudFromQueue with a log of fates; the transform lookup is an arbitrary function of the call number and the cloud. Invariant over arrivals (RosQueue_proofs.good): fewer than 10 waiting, queued = left ++ waiting, drops follow a failed lookup of the same cloud with a full queue. Proved.
- **C52 Pose lookup interpolates between the poses around the timestamp** — RosQueue.v models lookupTransformQueue; poses are abstract, stamps are integers (ns), the ratio is computed in floats. Case analysis on where the loop stops; also shown that dropping loses nothing for later lookups. Proved; 'nearest pose' is refuted.
- **C53 Intensity integration writes to the voxels along the ray** — Intensity.v models the ray cast and addIntensityBearingVectors with the block pointer mix-up of line 58. Frame and value theorem by an invariant over the five samples; refuted in full by a ray that leaves the block diagonally.
- **C54 Simulated distance is the clamped distance to the nearest object** — Sim.v models objects.h and simulation_world; the object loop is a fold of float comparisons (nearest, first nearest's colour); the layer theorem is a frame invariant over the visited blocks. The block sampling misses blocks: C54_cover_refuted.
- **C55 Mesh messages represent every vertex within quantisation error** — MeshMsg.v: float error bounds of encoding and decoding per axis, all 256 channel values, the loop over the updated meshes; MeshReach_proofs.v bounds the vertices of extractBlockMesh. Refuted for one voxel per block.
- **C56 Concurrent updates of one voxel are atomic** — Update.v/Lock_proofs.v: every shared access is a step; invariant relating memory to the serial execution of the calls that have returned.
- **C57 ICP mini-batches are disjoint and cover the requested prefix** — Icp.v: the threads of one ICP run as an interleaving of atomic actions (fetch_add, lock, unlock, read and write of the shared pose and of the count), with the matching, the estimate and the fusion as parameters; Icp_proofs.v: mutual exclusion, the handed-out batches as a permutation of the multiples of the batch size, the fused updates as a permutation of the successes, and a decreasing measure.
- **C58 The index recovered from a block's origin is the block's index** — Index.v/Index_float.v: round(origin * inv) in binary32; rounding error analysis.
- **C59 Concurrent insertion into the approximate set loses no element** — Queue.v: replaceHash as separate load and store; invariant over all interleavings.
- **C60 An observation moves the stored distance to the weighted mean** — Update.v: rounding error analysis of the weighted mean.
- **C61 The measured distance is the distance along the ray** — Dist_proofs.v: rounding error analysis of norm, dot product and division.
- **C62 Incremental meshing equals meshing everything** — MeshLayer_proofs.v: generateMesh over a layer and a map of meshes; refutation with a changed neighbour block.
- **C63 Neighbouring ESDF distances differ by at most one step** — Esdf_total.v/Esdf_step.v: when the queue is empty no neighbour can be improved; rounding analysis of the comparison.
- **C64 A batch ESDF update takes over the TSDF** — Esdf_batch.v: the first phase maps each TSDF voxel to its image; frames of the loops.
- **C65 ESDF distances are path lengths** — Esdf_step.v: parents invariant and well-founded descent of distances along parents.
- **C66 Nearest-voxel queries answer with the voxel containing the point** — Interp_axis.v, Interp_proofs.v: the cell of a point per axis, then the address arithmetic.
- **C67 Casting a ray onto the surface ends and reports a point near it** — Intensity.v; each step moves at least half a voxel (float error bound), so the march ends; the last step is read off.
- **C68 Simulated objects report the signed distance to their surface** — Sim.v, Sim_geom.v: forward error analysis of each object's distance in float and double against real geometry (Sim_spec.box_sdf, dist_to).
- **C69 A simulated view reports the nearest surface of each pixel** — Sim.v: fold over the objects per pixel; range and nearest-hit invariants; NaN hits refute the full statement.
- **C70 A viewer that receives every mesh message shows the server's meshes** — MeshMsg.v, MeshView_proofs.v: invariant over sessions: a mesh is either flagged as updated or already shown.
- **C71 Observations are weighted by depth, by how far behind the surface they are, and by sparsity** — Update.v (getVoxelWeight, req_weight) against Weight_spec.v (exact real formula); P_Weight.v: standard error model of each operation.
- **C72 Mesh triangles face the free side and carry their unit normal** — Marching.v table against Facing_spec.v: the triple product is affine in each vertex position, so its sign over all positions is decided at the ends of the edges for the 256 patterns (kernel computation) and lifted to the reals; normals by invariant over mesh extraction and error analysis (Facing_proofs.v).
- **C73 The ray of a measurement covers the configured interval** — Ray.v (ray_points, RayCaster_new) against RayEnds_spec.v (exact end points); error analysis in Vec_proofs.v and RayEnds_proofs.v, combined with the ray chain of C24.
- **C74 Integrating a cloud observes exactly the voxels on the rays of its points, whatever the threads do** — Cloud.v (whole-cloud integration: threads with block caches over a shared map and a temporary block store) against Cloud_spec.v (observed: what a list of observations does to a map); invariant over all schedules in Cloud_proofs.v, statement in P_Cloud.v.
- **C75 Merged integration bundles the points of a voxel into one ray** — Cloud.v (bundles, merge_points, merged_voxel, two phases of threads) against Cloud_spec.v (bundled, bundle_seen); Cloud_proofs.v, P_Cloud.v; error analysis of the running mean in Mean_proofs.v against Mean_spec.v, P_Mean.v.
- **C76 Integrating sane clouds never aborts, hangs or runs into undefined behaviour** — Total_spec.v; totality of ray casting, of the slot search and of updates in Total_proofs.v, by induction over the schedule; P_Total.v.
- **C77 One occupancy update per voxel and cloud, hits win** — OccCloud.v (sets of free and occupied cells, update loops with cached block) against OccCloud_spec.v (swept, occ_observed); invariants over points and updates in OccCloud_proofs.v, P_OccCloud.v.
- **C78 Distance and gradient queries mean what they say** — Grad.v (getGradient, getAdaptiveDistanceAndGradient, the EsdfMap queries) on top of Interp.v, against Grad_spec.v (neighbour, beside, slope_at, plane). Totality and interpolation error from C41/C66, rounding error of the difference quotients; trilinear interpolation reproduces affine functions; C78_failure_refuted by computation.
- **C79 Batch queries are the single queries; slices write exactly what they report** — Slice.v (the loops over blocks and voxels with their counters and conditional writes) and the batches of Grad.v, against Slice_spec.v (slice_hits as a filter over all voxels, filled arrays). Induction over blocks and voxels with the count as invariant; induction over positions for batches. Refutations by computation.
- **C80 Colour maps give every value the colour of its place in the range** — ColorMap.v in binary32/binary64 with undefined casts as None, against ColorMap_spec.v (real HSV channels, share of the range, piecewise linear palette). Rounding error analysis and Lipschitz bounds; monotonicity from monotone rounding. Refutations by computation. ExponentialOffsetIdColorMap is not modelled.
- **C81 A camera model sees exactly its frustum and bounds it by a box** — Camera.v, written over an arithmetic and read with reals and with binary32, against Camera_spec.v (poses, seen). The plane test as the sign of a triple product, which the pose multiplies by its determinant; the box by splitting a linear function over the corners; the float box by induction over the corners; C81_float by bounding the rounding errors of normal and dot products (Camera_float.v, on the normal bound of Facing_proofs.v). C81_zero_near_refuted for near distance 0.
- **C82 PLY files are valid and hold exactly the mesh** — Ply.v models files as lines of words (floats as the six-digit decimal that is printed), both writers and the layer function; Ply_spec.v is an independent reader of the PLY format; round trip by induction over the vertices, faces and calls; decimal rounding error from exact rationals (Ply_proofs.v, P_Ply.v).
- **C83 Clouds show exactly the voxels they should** — VoxCloud.v models the loops over blocks and voxels and each condition, VoxCloud_spec.v says what it means for a cloud to picture the accepted voxels of a layer, VoxCloud_proofs.v proves both loops for any condition, VoxCloud_color.v bounds the colour, P_VoxCloud.v instantiates each function.
- **C84 A slice shows the layer of voxels the plane lies in** — Model VoxCloud.v (slice_plane, in_slice, fremainder: std::remainder computed exactly on mantissas). VoxSlice_proofs.v shows that the model's remainder is x - n y with n nearest to x / y, that the shifted plane is t + 1/2 voxels up to 1/200, and that a plane well inside a layer of voxels accepts exactly the centres of that layer. P_VoxSlice.v: C84_slice_partial (planes on a boundary or in the lower half of a voxel), C84_upper_half (planes in the upper half show the next layer instead: std::remainder is negative there, so the shift that is meant for planes on a boundary is applied), C84_slice_refuted.
- **C85 Withdrawing an obstacle forgets every distance that came from it** — Raise_spec.v says when a distance is derived from a set of roots (the transitive closure of the parent relation). Raise_proofs.v: invariant that each root or forgotten voxel is still in the raise queue or all its 26 neighbours have been dealt with; termination because each push to the raise queue uses up one parent. P_Raise.v: C85_raise, C85_ends.
- **C86 Transforming a layer carries its content to the transformed place** — Transform.v models the marking loops, the per-voxel interpolation of distance, weight and colour, and the naive variant. Transform_spec.v says which blocks are considered and what a reworked block holds. Transform_proofs.v (one voxel), Transform_blocks.v (blocks, the loop over the set), Transform_marks.v (the loops end and mark exactly the considered blocks), Transform_same.v (resampling). P_Transform.v: C86_transform_partial, C86_resample_same and three refutations.
- **C87 A robot position frees what is around it and never overwrites a measurement** — Esdf.v models addNewRobotPosition over the sphere model of Planning.v. Robot_spec.v says what each voxel becomes and what is queued; Robot_proofs.v simulates the two loops by layer-only steps (the spheres list no voxel twice, so every voxel is visited once) and uses the queue invariant for totality. P_Robot.v: C87_robot, C87_clear.
- **C88 The bounds of a map enclose it tightly** — Bounds.v (fold of component-wise minimum and maximum, float origin and sum, cast to double), Bounds_spec.v (in_box, snug, beyond over voxel centres). Bounds_proofs.v: monotone rounding for the enclosure, error bounds for tightness and for positions outside. P_Bounds.v: C88_bounds; C88_empty_refuted: without blocks the call reads uninitialised indices.
- **C89 Weight queries agree with distance queries** — WeightQ.v on top of Interp.v; the lookup of the eight voxels is C41, the rounding bound C40. Exactness for an ESDF: sums of small integers in any order are exact (WeightQ_proofs.v). P_WeightQ.v: C89_weight, C89_esdf, C89_nearest, C89_map.
- **C90 Saving the maps of a server and loading them restores them** — ServerIO.v composes the file functions of LayerIO.v as the servers do; ServerIO_spec.v says what restored means; ServerIO_proofs.v: loading with kReplace into a layer that may have blocks, by induction on the stored blocks. P_ServerIO.v: C90_tsdf, C90_esdf_partial, C90_tsdf_first, C90_small_refuted.
- **C91 A point cloud message is integrated point by point, without the invalid points** — Intake.v models the scan of the fields, convertPointcloud, convertColor and the selection of the colour map; PCL's parsing of the byte buffer is not modelled. P_Intake.v: C91_intake and C91_invalid_ignored by induction on the points, C91_maps_total from C80, C91_zero_range_refuted.
- **C92 A displayed mesh shows every vertex once, in place, in the colour of the mode** — MeshVis.v models the colour modes in float arithmetic and both fill functions; MeshVis_spec.v gives the wanted colour over the reals. P_MeshVis.v: C92_marker and C92_pointcloud by rounding-error bounds and induction over the meshes, C92_pointcloud_colors and C92_color_exact by cases on the byte, C92_missing for the aborts.
- **C93 Subscribers of an ESDF server have its maps after a publication** — EsdfSync.v models the server with both maps and both sets of subscribers on top of RosMsg.v and Esdf.v. P_EsdfSync.v: invariant of every history (all blocks complete and flagged for publication) by induction on the events; every write of the integrator keeps it (EsdfSync_proofs.v, Section closed). The failing events are refuted one by one.
- **C94 Simulated viewpoints are inside the world and clear of its objects** — SimView.v models the loop with the draws as an input stream, in the floats of the code. P_SimView.v: exact bounds by monotonicity of rounding (the rounded size is off by no more than what half the lower bound takes away); distances by C54 and C68; direction by the error of the norm. Worlds away from the origin, the unreachable half and cylinders are refuted.
- **C95 The intensity mesh shows what was measured at each vertex** — IntServer.v models the recolouring loop on the message of MeshMsg.v, the lookup in floats and the ironbow map. P_IntServer.v: invariant of the vertex loop; the lookup is total for 16-bit coordinates. The code looks voxels up at the raw 16-bit numbers instead of the positions they encode: the claim with the position is refuted, and a map at negative coordinates is proved never to be shown.
- **C96 An intensity image is integrated pixel by pixel along its viewing rays** — IntServer.v models the two pixel loops with their running counter and the float bearing. P_IntServer.v: induction over rows and pixels against the list of kept pixel numbers; the offsets from the image centre are exact in float, the direction is within 9 ulps of the unit vector; the number of kept pixels. A factor of zero is undefined behaviour.
- **C97 A simulated camera sees one ray per pixel, and noise moves readings only along their rays** — SimNoise.v models the pixel loops (C++ division towards zero), the ray directions in floats, the noise step and the two pose variants. P_SimNoise.v: induction over the rays for the noisy against the clean view; the pixel range of an even size; the direction within 9 ulps of the unit vector. Odd sizes lose a row or column (refuted for every odd size); from a pose the two cameras look along different axes (refuted).
- **C98 Ground and walls of a simulated world bound it where they were put** — SimNoise.v models the two functions as the planes they append. P_SimNoise.v: the plane distance along an axis is exactly the rounded difference; the minimum over the objects; the sign of a rounded difference is exact.
- **C99 Simulated rays meet objects on their surfaces, and objects in the way are seen** — SimHit_spec.v states the surfaces in the reals. SimHit_proofs.v (plane, sphere), SimBox_proofs.v (the slab method as an interval intersection) and SimCyl_proofs.v (residual of the computed roots, caps) bound the rounding of every step of Sim.v's intersections. A cylinder is never seen by a ray along its axis (refuted).
- **C100 Reported memory counts what layers and meshes hold** — LayerUtils_spec.v and P_MeshOps.v state the sizes as sums over the contents; the reported sizes are equal by induction over the blocks and meshes. A mesh without colours is reported with a colour per vertex (refuted).
- **C101 Recolouring and polygon export keep a mesh's triangles** — MeshOps.v models both loops. Induction over the triples of the index list, on top of the combined mesh of C38.
- **C102 Evaluating a layer at candidate poses treats every pose on its own** — EvalPoses.v models the loop over Transform.v and Eval.v. Induction over the poses with the filled part of the vector as invariant; C86 gives that every pose can be moved, C45 that the numbers do not depend on the error layer.
- **C103 Layers that do not match are refused** — The checks are in Esdf.v (esdf_new) and EvalPoses.v; error bounds of the two double operations on each side.
- **C104 A layer used by coordinates is a map from voxels to values** — Coords_spec.v defines the map and its operations; P_Coords.v proves by induction over programs that the layer sees what the map sees, from a rounding lemma saying that a point addresses the voxel containing it.
- **C105 The hierarchical index of a ray lists every voxel of the ray once, under its block** — HierRay.v models the function over the ray caster of C24 and C73; induction over the voxels with the invariant that the index built so far is the sorted prefix (HierRay_spec.v).
- **C106 Meshing with colours succeeds, and every vertex has the colour of the observed voxel it lies in** — Error bounds for the vertex (MeshColor_proofs.v) put its cell at one of the two ends of its edge or next to the border between them; both ends are observed (C37), so the lookup finds a colour. P_MeshColor.v lifts this over the blocks.
- **C107 The PLY file exported for a layer shows its surface, or its distances, completely** — LayerPly.v models the dispatch over MeshInt.v, VoxCloud.v and Ply.v. Bounds on vertices and normals (LayerPly_proofs.v) discharge the hypotheses of C39, C82, C83 and C106.
- **C108 The evaluation against a ground-truth cloud counts every point once and reports the error of the map at the points** — GtEval.v models the loop over Interp.v, Coords.v and ColorMap.v. Induction over the cloud with the invariant that the layer differs from the original in colours only (GtEval_proofs.v); rounding of the sum in GtEval_rms.v.
- **C109 A mesh layer is a map from blocks to meshes, used by index or by coordinates** — MeshStore.v models the calls as steps on an association list in the order of the hash map; MeshStore_spec.v gives the same calls on a function from indices to meshes. Refinement by induction over the program, with distinct keys as the invariant.
- **C110 The approximate hash array returns the last value written to the bin of an index** — HashArray.v models the array and its access through a reference. Induction over the writes; the two truncations of the hash do not change its low bits.
- **C111 The exponential id colour map spreads ids evenly over the colour circle** — IdColors.v models the lookup over ColorMap.v. The exact hues are dyadic fractions in lowest terms (integer proof); the float hue by error analysis of each operation; the colour by C80_rainbow and the Lipschitz bounds of the channels around the circle.
- **C112 Settings read from parameters are the documented ones and fit together** — Params.v models the readers over partial functions from names to values, giving the configuration records the other models use. Float facts for the scaled defaults; the bit trick of isPowerOfTwo by the highest bit; composition with C103_esdf and with the validity condition of the ESDF theorems.
- **C113 An alignment step finds the rigid motion of least squared error** — Kabsch.v models the step over the reals with the decomposition as an argument; Kabsch_spec.v defines rotations, the remaining squared error and what a decomposition is. The error splits into a part for the translation and a trace; the trace is bounded by the singular values, using that a mirroring orthogonal matrix has trace at most 1. The planar case by angles.
- **C114 Pose updates are weighted between none and all by information that only grows** — IcpInfo.v models the six float sums and quotients; bounds that are small multiples of powers of two are representable, so rounding never crosses them; weights by monotonicity of rounding; contents by a chain of relative errors. Induction over the points and over the updates.

## What `Print Assumptions` lists, theorem by theorem

Four axioms occur, all from Coq's standard library:

- `ClassicalDedekindReals.sig_forall_dec` and `ClassicalDedekindReals.sig_not_dec`
  (decidability used by the construction of the reals);
- `FunctionalExtensionality.functional_extensionality_dep`;
- `Classical_Prop.classic` (excluded middle).

Flocq's binary floats carry proofs about reals, so any theorem about a
definition that mentions a float depends on the axioms of the reals.
The theorems of MANIFEST.json, by the set of axioms listed for them:

- **closed under the global context** (47 theorems): C01_local_index, C02_linear_of_voxel, C02_voxel_of_linear, C02_refuted_huge_blocks, C05_neighbour_is_global_sum, C05_neighbourhood, C05_offset_between, C06_complete, C06_each_once, C06_symmetric, C10_no_condition, C20_one_thread, C26_answers, C26_present_after_insert, C26_displaced_only_by_slot, C27_reset_empties_partial, C27_absent_until_inserted_partial, C27_hash_zero_refuted, C28_front_is_oldest_of_lowest, C28_drain_sorted, C59_somebody_is_told, C59_no_invented_element, C59_exactly_one_refuted, C33_edges, C34_watertight, C35_each_cube_once, C36_skipped_iff, C38_concatenate, C38_whole_mesh, C38_concatenate_empty_refuted, C51_bounded, C51_order_once, C51_at_most_once, C51_reasons, C51_available, C91_intake, C91_invalid_ignored, C96_count, C96_no_pose, C96_zero_refuted, C100_memory, C100_grows, C100_mesh_partial, C101_colour, C110_latest, C110_lines, C110_shared.
- **`sig_forall_dec`, `functional_extensionality_dep`** (8 theorems): C40_table, C40_corner, C40_range, C72_facing, C111_spread, C113_full, C113_yaw, C113_exact.
- **`sig_forall_dec`, `sig_not_dec`, `functional_extensionality_dep`** (4 theorems): C61_sign, C81_view, C81_box, C81_zero_near_refuted.
- **`sig_forall_dec`, `sig_not_dec`, `classic`, `functional_extensionality_dep`** (389 theorems): C01_split_then_join_partial, C01_join_then_split_partial, C01_layer_address_partial, C01_refuted, C03_lookup_stays_inside, C03_lookup_is_nearest, C04_centre_maps_back, C04_layer_voxel_maps_back, C06_distances, C58_block_index_of_origin, C07_tsdf_lossless, C07_occupancy_lossless, C07_intensity_lossless, C08_esdf_lossless_partial, C08_refuted, C08_refuted_far, C09_length_checked, C09_right_length_loads, C09_same_words, C10_save_load_partial, C10_save_LoadLayer_partial, C10_save_subset, C10_refuted_esdf, C11_truncated_never_loads, C11_truncated_never_loads_layer, C11_load_terminates, C12_finds_layer_partial, C12_LoadLayer_finds_layer_partial, C12_refuted_small_file, C13_prohibit, C13_replace, C13_discard, C13_merge, C13_merge_voxels, C13_incompatible, C13_compatible, C14_layers_are_maps, C14_calls_defined, C14_get_missing_aborts, C14_listing, C15_removes_exactly, C15_idempotent, C16_copy_partial, C16_refuted, C17_tsdf_merge, C17_tsdf_neutral, C17_tsdf_both_unobserved, C17_tsdf_commutative, C17_exact_neutral_refuted, C17_esdf_merge, C17_occupancy_merge, C18_merge_layer_partial, C18_no_voxel_lost, C18_refuted_no_data, C18_refuted_layout, C47_blend_between, C47_zero_weight, C47_same_color, C47_refuted_overflow, C19_never_twice, C19_every_index_once, C19_exhaustion_reported, C19_orders_are_permutations, C19_sorted_by_norm, C20_bundles, C20_defined, C20_validity, C21_same_block, C21_existing_used, C21_one_block_per_index, C21_final_layer, C21_no_deadlock, C28_refines, C28_bucket_order, C28_last_bucket, C22_bounds, C22_weight_monotone, C22_defined, C23_clamped, C23_observed, C23_saturation, C23_direction, C56_serializable, C56_exclusive, C56_no_deadlock, C60_weighted_mean, C60_skip, C61_projective_distance, C24_ray_chain, C24_nan_ray_refuted, C25_ray_reaches_end_partial, C25_constant_x_refuted, C25_constant_y_refuted, C25_border_refuted, C33_cube_appended, C33_nan_refuted, C36_usable, C36_cube_reads, C36_block_mesh, C37_vertex_on_edge, C37_both_ends_agree, C37_shared_vertex_identical_refuted, C38_cubes_consistent, C39_connected, C39_succeeds, C39_attributes, C39_no_normals_refuted, C62_generate, C62_generate_succeeds, C62_incremental_partial, C62_stale_neighbour_refuted, C29_propagation_frame, C29_no_new_voxel, C29_process_open_set, C29_raise_frame, C30_step_partial, C30_sides, C30_step_refuted, C30_sides_full_refuted, C32_new_idle, C32_batch_partial, C32_no_abort_partial, C32_batch_refuted, C63_neighbours, C64_tsdf_copied, C65_distances_traced, C43_mesh, C43_esdf, C43_independent, C43_band_refuted, C44_answer, C44_answers, C44_symmetric, C44_reflexive_partial, C44_tolerance, C44_reflexive_refuted, C44_answers_refuted, C42_shift, C42_succeeds, C42_undo, C40_float, C41_voxels, C41_distance, C66_nearest, C46_sphere_partial, C46_fill, C46_clear, C46_exact_refuted, C46_huge_radius_refuted, C48_statistics, C48_min_max_partial, C48_variance, C48_handles, C48_tag, C48_samples, C48_rate, C48_max_refuted, C48_rolling_refuted, C48_count_refuted, C45_counts, C45_non_overlapping, C45_max, C45_rmse, C45_rmse_nothing, C45_error_layer, C45_min_is_zero, C45_min_refuted, C45_unobserved_counted, C49_update, C49_reset, C49_merge_partial, C49_mismatch, C49_bad_length, C49_transfer, C49_merge_refuted, C49_duplicate_aborts, C50_follow_partial, C50_covers, C50_removal_refuted, C50_relay_refuted, C52_found, C52_fails, C52_forward, C52_nearest_refuted, C53_writes_partial, C53_weights_partial, C53_refuted, C67_terminates, C67_found, C54_nearest, C54_voxel, C54_layer_partial, C54_cover_refuted, C68_sphere, C68_cube, C68_cube_outside, C68_plane, C68_cylinder_partial, C68_cylinder_refuted, C69_partial, C69_view, C69_refuted, C55_message, C55_reach_partial, C55_small_blocks_refuted, C55_documented_resolution_refuted, C70_viewer_in_sync, C57_disjoint, C57_cover, C57_counted, C57_counted_during, C57_success, C57_poses, C57_threshold, C57_no_deadlock, C57_terminates, C57_zero_batch_refuted, C31_safe, C31_ends, C31_distances, C31_any_order, C31_unique, C31_incremental_refuted, C71_constant, C71_depth, C71_voxel, C72_normals, C73_ray_ends, C74_simple, C74_fast, C75_merged, C75_mean, C75_colors, C75_clearing, C75_weightless_refuted, C76_simple, C76_fast, C76_merged, C77_occupancy, C77_completed, C77_hits, C77_bounds, C77_adjacent_refuted, C77_sensor_refuted, C78_gradient, C78_plane, C78_adaptive, C78_map, C78_failure_refuted, C79_distances, C79_gradients, C79_observed, C79_esdf_slice, C79_tsdf_slice, C79_hits, C79_unmarked, C79_border_refuted, C79_integrated_refuted, C79_weights_refuted, C80_rainbow, C80_gray, C80_monotone, C80_hue, C80_ironbow, C80_empty_range_refuted, C80_ids_refuted, C81_float, C81_aabb, C82_mesh, C82_layer_plain, C82_layer_connected, C82_writer, C82_writer_overrun_refuted, C82_precision_refuted, C82_indices_refuted, C83_tsdf, C83_esdf, C83_other, C83_sdf, C83_centre, C83_occupied_refuted, C83_nan_refuted, C84_slice_partial, C84_upper_half, C84_slice_refuted, C85_raise, C85_ends, C86_transform_partial, C86_resample_same, C86_translate_refuted, C86_resample_refuted, C86_naive_refuted, C87_robot, C87_clear, C88_bounds, C88_empty_refuted, C89_weight, C89_esdf, C89_nearest, C89_map, C90_tsdf, C90_esdf_partial, C90_tsdf_first, C90_small_refuted, C91_maps_total, C91_maps, C91_zero_range_refuted, C92_marker, C92_pointcloud, C92_pointcloud_colors, C92_color_exact, C92_missing, C92_short, C93_esdf_partial, C93_esdf_covers, C93_clear_esdf, C93_tsdf_partial, C93_tsdf_covers, C93_publish_total, C93_clear_refuted, C93_silent_refuted, C93_sphere_refuted, C93_rebuild_refuted, C93_distant_refuted, C93_relay_refuted, C94_viewpoint_partial, C94_exhausted, C94_sphere, C94_box, C94_direction, C94_bounds_refuted, C94_span_refuted, C94_cylinder_refuted, C95_recolor_partial, C95_place_refuted, C95_negative_refuted, C96_image, C97_rays_partial, C97_odd_refuted, C97_noisy, C97_no_noise, C97_pose_refuted, C98_ground, C98_walls, C99_plane_hit, C99_plane_seen, C99_sphere_hit, C99_sphere_seen, C99_box_hit, C99_box_seen, C99_cylinder_hit, C99_cylinder_seen_refuted, C100_mesh_refuted, C101_polygons, C102_poses, C102_runs, C103_esdf, C103_poses, C104_map, C105_hierarchy, C106_generate, C107_surface, C107_connected, C107_distances, C107_refused, C108_report, C108_recolor_partial, C108_recolor_refuted, C108_truncated_refuted, C109_mesh_layer, C109_one_block, C111_color, C111_unique_refuted, C111_no_items_refuted, C112_sides_partial, C112_sides_refuted, C112_map, C112_tsdf, C112_esdf, C112_mesh, C112_layers, C112_usable, C112_large_refuted, C114_information, C114_content, C114_weights, C114_run, C112_icp, C112_icp_usable.

## What is modelled and what is not

Left column: source file below /repo/voxblox, /repo/voxblox_ros or
/repo/voxblox_rviz_plugin. The line numbers are in the comment above each
definition of the model file.

| Source | Model file | Not modelled |
|---|---|---|
| core/common.h | Types.v, Index.v, F32.v, Ray.v | exact `Transformation` algebra beyond rotation matrix and translation (minkindr quaternions); `aligned` allocators |
| core/color.h | Voxel.v, ColorMap.v | named colour constants other than those used |
| core/voxel.h, utils/voxel_utils | Voxel.v, Merge.v | — |
| core/block.h, block_inl.h, src/core/block.cc | Index.v, Layer.v, Serialize.v, LayerIO.v, LayerUtils.v (memory sizes) | — |
| core/block_hash.h | Assoc.v, Queue.v | the bucket order of std::unordered_map: maps are association lists and theorems hold for any order of the list |
| core/layer.h, layer_inl.h | Layer.v, Heap.v, LayerIO.v, Coords.v, LayerUtils.v (memory sizes) | DCHECKs (release build) |
| core/tsdf_map, esdf_map, occupancy_map | Slice.v, Grad.v, Interp.v | ROS-like accessors that only return a member; the unused argument checks |
| integrator/integrator_utils | Ray.v, HierRay.v, Threads.v | logging |
| integrator/tsdf_integrator | Update.v, Cloud.v, Threads.v, Flags.v | the wall-clock cut-off of the fast integrator is a nondeterministic stop |
| integrator/occupancy_integrator.h | Update.v, OccCloud.v | timers |
| integrator/intensity_integrator, utils/distance_utils.h | Intensity.v | — |
| integrator/esdf_integrator | Esdf.v, Flags.v, Planning.v | timers and counters that are only logged |
| integrator/esdf_occ_integrator | EsdfOcc.v | timers |
| integrator/merge_integration.h | Merge.v, Transform.v, EvalPoses.v | — |
| interpolator | Interp.v, Grad.v, Transform.v | — |
| alignment/icp | Icp.v, IcpInfo.v, Kabsch.v (exact reading) | the singular value decomposition (its contract is a hypothesis of C113), exponential and logarithm of motions, the matching of points (parameters of the model) |
| mesh/marching_cubes, mesh.h, mesh_layer.h, mesh_utils.h, mesh_integrator.h | Marching.v, MeshInt.v, MeshOps.v, MeshStore.v | timers |
| io/layer_io, utils/protobuf_utils, proto | LayerIO.v, Proto.v | the file system (a file is a list of bytes); unknown protobuf fields are skipped as in the wire format |
| io/mesh_ply, ply_writer.h, sdf_ply | Ply.v, VoxCloud.v, LayerPly.v | errors of the stream after opening |
| utils/bucket_queue.h, approx_hash_array.h | Queue.v, HashArray.v | — |
| utils/camera_model | Camera.v | the tangents of the opening angles and the float transformation of the corners |
| utils/color_maps.h | ColorMap.v, IdColors.v | `log2` and `exp2` of integers are taken as exact |
| utils/evaluation_utils | Eval.v | — |
| utils/layer_utils | LayerUtils.v | — |
| utils/meshing_utils.h | MeshInt.v | — |
| utils/neighbor_tools | Neighbor.v | — |
| utils/planning_utils | Planning.v, Bounds.v | — |
| utils/timing | Timing.v | reading the clock (inputs of the model) |
| simulation | Sim.v, SimNoise.v | the normal-distributed noise source (an input of the model) |
| voxblox_ros conversions | RosMsg.v, MeshMsg.v | ROS transport |
| voxblox_ros mesh_vis.h, mesh_pcl.h | MeshMsg.v, MeshVis.v, MeshOps.v | — |
| voxblox_ros ptcloud_vis.h | VoxCloud.v | — |
| voxblox_ros tsdf_server, transformer | RosQueue.v, RosMsg.v, Intake.v, ServerIO.v | publishers, parameter parsing, TF buffer |
| voxblox_ros esdf_server | EsdfSync.v, ServerIO.v | publishing of point clouds, parameter parsing |
| voxblox_ros simulation_server | SimView.v | parameter parsing, publishing; `generateSDF` is a loop over viewpoints calling the modelled integrators |
| voxblox_ros intensity_server, intensity_vis.h | IntServer.v | parameters, publishing and the pose lookup itself |
| voxblox_ros voxblox_eval.cc | GtEval.v | loading the files, the transformation of the cloud by PCL, publishing |
| voxblox_ros ros_params.h | Params.v | the number of alignment threads; the conversions of the ROS client library |
| voxblox_ros visualize_tsdf, interactive_slider | — | not modelled (wiring) |
| voxblox_rviz_plugin | MeshMsg.v | Ogre rendering |
