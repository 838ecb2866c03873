{"id": "C01", "title": "Global voxel index splits into block and local index and recombines", "statement": "For a power-of-two voxels_per_side, splitting a global voxel index into (block index, local voxel index) and recombining gives back the same global index, the local index lies in [0, voxels_per_side) on each axis, and splitting a recombined pair gives back the pair. A voxel therefore has one address.", "quantifier": "every global voxel index, every block/local pair and every power-of-two voxels_per_side", "why_tests_cant": "The split goes through a float multiplication for the block index and a bit mask for the local index; agreement of the two over the whole 64-bit index range cannot be sampled.", "anchors": ["voxblox/include/voxblox/core/common.h: getGlobalVoxelIndexFromBlockAndVoxelIndex, getBlockIndexFromGlobalVoxelIndex, getLocalFromGlobalVoxelIndex, getBlockAndVoxelIndexFromGlobalVoxelIndex"]}
{"id": "C02", "title": "Linear index and 3D voxel index are a bijection inside a block", "statement": "Inside a block every valid 3D voxel index has exactly one linear index in [0, vps^3) and converting back returns the same voxel index; every valid linear index is hit.", "quantifier": "every voxels_per_side whose block has at most 2^31 voxels (the code keeps the linear index in an int) and every voxel or linear index", "why_tests_cant": "block sizes are unbounded", "anchors": ["voxblox/include/voxblox/core/block_inl.h: computeLinearIndexFromVoxelIndex, computeVoxelIndexFromLinearIndex, isValidVoxelIndex", "voxblox/include/voxblox/core/block.h: isValidLinearIndex"]}
{"id": "C03", "title": "Looking a voxel up by coordinates never leaves the block", "statement": "Looking up a voxel of a block by a metric point yields a valid voxel index of that block for every point whose scaled coordinate fits an int; points outside the block are clamped to the nearest border voxel, and points inside are assigned the containing voxel.", "quantifier": "every float point, origin and voxel size, including values far outside the block", "why_tests_cant": "the float input space is too large; the failing inputs are the rounding edges", "anchors": ["voxblox/include/voxblox/core/block_inl.h: computeTruncatedVoxelIndexFromCoordinates", "voxblox/include/voxblox/core/block.h: computeVoxelIndexFromCoordinates"]}
{"id": "C04", "title": "The centre of a voxel maps back to that voxel", "statement": "Converting a grid index to the centre point of its cell and converting that point back to a grid index returns the same index, for every voxel size in a wide range and every index up to a stated magnitude.", "quantifier": "every index with |i| <= 2^20 and every voxel size for which no over- or underflow happens", "why_tests_cant": "a rounding-error claim over all single-precision voxel sizes", "anchors": ["voxblox/include/voxblox/core/common.h: getCenterPointFromGridIndex, getGridIndexFromPoint"]}
{"id": "C05", "title": "Neighbour lookup across block borders equals global index arithmetic", "statement": "The neighbour of a voxel in any of the 26 directions, computed from its block index and local voxel index, is the voxel whose global index is the global index of the first plus the direction; the local index is always valid. The offset between two such addresses is the difference of global indices.", "quantifier": "every block index, valid local index, direction of any length and voxels_per_side", "why_tests_cant": "boundary combinations grow with block size and the carry loops run an input-dependent number of times", "anchors": ["voxblox/include/voxblox/utils/neighbor_tools.h: getFromBlockAndVoxelIndexAndDirection, getFromBlockAndVoxelIndex, getFromGlobalIndex, getOffsetBetweenVoxels"]}
{"id": "C06", "title": "The 26-neighbourhood is complete, symmetric and has the right distances", "statement": "The neighbour table lists each non-zero offset in {-1,0,1}^3 exactly once, contains the opposite of each entry, and the tabulated distance of each entry is the Euclidean length of its offset; the first 6 (18) entries are exactly the 6- (18-) neighbourhood.", "quantifier": "all offsets", "why_tests_cant": "needs exhaustive coverage together with a statement about real square roots", "anchors": ["voxblox/src/utils/neighbor_tools.cc: kOffsets, kDistances", "voxblox/include/voxblox/utils/neighbor_tools.h: NeighborhoodLookupTables"]}
{"id": "C07", "title": "TSDF, occupancy and intensity blocks serialize losslessly", "statement": "Serializing the voxels of a TSDF, occupancy or intensity block to 32-bit words and deserializing into a block of the same size restores every voxel bit for bit (including NaN payloads, infinities, signed zeros and colour with alpha).", "quantifier": "every block size and all voxel contents", "why_tests_cant": "voxel contents range over all bit patterns and block sizes are unbounded", "anchors": ["voxblox/src/core/block.cc: serializeToIntegers, deserializeFromIntegers"]}
{"id": "C08", "title": "ESDF blocks serialize losslessly", "statement": "Serializing an ESDF block and deserializing it restores distance, observed, hallucinated, in_queue, fixed and parent direction of every voxel.", "quantifier": "every block size and all voxel contents", "why_tests_cant": "parent packing mixes sign extension and shifts; failing inputs are specific sign patterns", "anchors": ["voxblox/src/core/block.cc: serializeDirection, deserializeDirection, Block<EsdfVoxel>::serializeToIntegers/deserializeFromIntegers"]}
{"id": "C09", "title": "Serialized data of the wrong length is rejected", "statement": "Deserializing a word list whose length does not match the block aborts instead of leaving a partially written block; a word list of the right length always deserializes, and for TSDF and intensity re-serializing returns the same words.", "quantifier": "every word list and block size", "why_tests_cant": "all lengths and contents", "anchors": ["voxblox/src/core/block.cc: deserializeFromIntegers"]}
{"id": "C10", "title": "A saved layer loads back unchanged", "statement": "Saving a layer to a file and loading the file into an empty layer of the same type and geometry succeeds and yields exactly the same set of blocks, with the same geometry, has_data flag and voxels.", "quantifier": "every layer: any number of blocks, any block indices, any voxel contents", "why_tests_cant": "depends on framing of a length-delimited byte stream with unbounded message sizes", "anchors": ["voxblox/include/voxblox/core/layer_inl.h: saveToFile, saveSubsetToFile, saveBlocksToStream, getProto, addBlockFromProto", "voxblox/include/voxblox/io/layer_io_inl.h: LoadLayer, LoadBlocksFromFile, LoadBlocksFromStream", "voxblox/src/utils/protobuf_utils.cc: readProtoMsgFromStream, writeProtoMsgToStream, readProtoMsgCountFromStream, writeProtoMsgCountToStream"]}
{"id": "C11", "title": "A truncated map file is never reported as loaded", "statement": "If writing a map file is interrupted at any byte (crash or full disk), loading the resulting prefix reports failure; it never reports success with missing blocks.", "quantifier": "every layer and every proper prefix of its file", "why_tests_cant": "every crash point of every file", "anchors": ["voxblox/include/voxblox/io/layer_io_inl.h: LoadBlocksFromFile, LoadBlocksFromStream", "voxblox/src/utils/protobuf_utils.cc"]}
{"id": "C12", "title": "Loading finds its layer in a file holding several layers", "statement": "When several layers of different types were appended to one file, loading with multi-layer support loads exactly the blocks of the first compatible layer and none of the others.", "quantifier": "every sequence of saved layers", "why_tests_cant": "any number and order of layers", "anchors": ["voxblox/include/voxblox/io/layer_io_inl.h: LoadBlocksFromFile", "voxblox/include/voxblox/core/layer_inl.h: saveSubsetToFile, isCompatible"]}
{"id": "C13", "title": "Block merging strategies do what they say", "statement": "Adding a stored block to a layer: with kProhibit the call aborts if a block is already there, with kReplace the stored block wins, with kDiscard the existing block stays, with kMerge the two blocks are merged; all other blocks are untouched and an incompatible block changes nothing and returns false. A block is compatible exactly when it has the layer's voxels per side and its voxel size up to the float tolerance.", "quantifier": "every layer, block and strategy", "why_tests_cant": "all layer states", "anchors": ["voxblox/include/voxblox/core/layer_inl.h: addBlockFromProto, isCompatible"]}
{"id": "C14", "title": "A layer is a map from block index to block under any history", "statement": "After any sequence of allocate, insert, remove, removeAll and lookups, a layer contains exactly the blocks a map with these operations would contain: allocation returns the existing block if present, inserting or allocating never overwrites an existing block, removal removes only that index, and lookups see the last state.", "quantifier": "every operation sequence", "why_tests_cant": "unbounded histories", "anchors": ["voxblox/include/voxblox/core/layer.h: allocateBlockPtrByIndex, allocateNewBlock, insertBlock, removeBlock, removeAllBlocks, getBlockPtrByIndex, getBlockByIndex, hasBlock, getNumberOfAllocatedBlocks, getAllAllocatedBlocks, getAllUpdatedBlocks"]}
{"id": "C15", "title": "Removing distant blocks removes exactly the distant blocks", "statement": "removeDistantBlocks(c, d) removes exactly the blocks whose origin is further from c than d (up to the rounding of the squared distance) and leaves all others untouched; applying it twice is the same as once.", "quantifier": "every layer, centre and distance", "why_tests_cant": "iterator invalidation and float comparison over any layer", "anchors": ["voxblox/include/voxblox/core/layer.h: removeDistantBlocks"]}
{"id": "C16", "title": "Copying a layer is a deep and complete copy", "statement": "The copy of a layer has the same blocks with the same geometry, voxels and flags, and later changes to the copy do not affect the original.", "quantifier": "every layer and every later operation on the copy", "why_tests_cant": "aliasing over any history", "anchors": ["voxblox/include/voxblox/core/layer_inl.h: Layer(const Layer&)"]}
{"id": "C17", "title": "Merging two voxels combines their evidence", "statement": "Merging TSDF voxels adds the weights and forms the weight-averaged distance (lying between the two inputs); merging with an unobserved voxel is neutral (the distance up to rounding), and merging is commutative. Merging occupancy voxels adds log-odds; ESDF voxels average when both observed. 'Observed' is the or of both.", "quantifier": "all voxel pairs", "why_tests_cant": "all float pairs", "anchors": ["voxblox/src/utils/voxel_utils.cc: mergeVoxelAIntoVoxelB"]}
{"id": "C18", "title": "Merging layer A into layer B transfers all of A", "statement": "After mergeLayerAintoLayerB every voxel of A has been merged into the voxel of B at the same place; blocks only in A appear in B and blocks only in B are unchanged.", "quantifier": "all pairs of layers (same or different block layout)", "why_tests_cant": "all layers", "anchors": ["voxblox/include/voxblox/integrator/merge_integration.h: mergeLayerAintoLayerB, resampleLayer, transformLayer", "voxblox/include/voxblox/core/block_inl.h: mergeBlock"]}
{"id": "C19", "title": "Every point of a cloud is processed exactly once under any thread schedule", "statement": "However the integrator threads interleave, the shared index getter hands out every index of the point cloud to exactly one thread, and then reports exhaustion to every thread; the mixed ordering is a permutation of all indices and the sorted ordering is a permutation ordered by squared norm.", "quantifier": "every number of points, number of threads and interleaving", "why_tests_cant": "thread schedules", "anchors": ["voxblox/src/integrator/integrator_utils.cc: ThreadSafeIndex::getNextIndex, MixedThreadSafeIndex, SortedThreadSafeIndex"]}
{"id": "C20", "title": "The merged integrator bundles and distributes each valid point exactly once", "statement": "Every valid point index is put in exactly one bundle (free-space or surface) keyed by its end voxel, invalid points in none, and each bundle is integrated by exactly one thread.", "quantifier": "every point cloud, validity pattern and thread count", "why_tests_cant": "any size and thread count", "anchors": ["voxblox/src/integrator/tsdf_integrator.cc: MergedTsdfIntegrator::bundleRays, integrateVoxels, integrateRays", "voxblox/include/voxblox/integrator/tsdf_integrator.h: isPointValid"]}
{"id": "C21", "title": "Concurrent voxel allocation yields one block per index and loses none", "statement": "However threads interleave while requesting voxels, all requests for the same global index refer to the same voxel, at most one new block is created per block index, no existing block of the layer is replaced, and after the final insertion the layer contains the old blocks and every requested one.", "quantifier": "every interleaving of requests by any number of threads", "why_tests_cant": "thread schedules", "anchors": ["voxblox/src/integrator/tsdf_integrator.cc: allocateStorageAndGetVoxelPtr, updateLayerWithStoredBlocks"]}
{"id": "C22", "title": "TSDF voxels stay truncated and weights stay bounded", "statement": "After any sequence of voxel updates, starting from fresh voxels, every stored distance lies in [-truncation, truncation] and every weight lies in [0, max_weight], for all float inputs including NaN and infinities; with finite non-negative observation weights the updates are always defined, and the weight of a voxel never decreases while below the maximum for non-negative update weights.", "quantifier": "every update sequence and all float inputs", "why_tests_cant": "IEEE corner cases over unbounded histories", "anchors": ["voxblox/src/integrator/tsdf_integrator.cc: updateTsdfVoxel, computeDistance, getVoxelWeight"]}
{"id": "C23", "title": "Occupancy log-odds stay clamped and observed is monotone", "statement": "After any sequence of hit and miss updates an observed voxel's log-odds lie within [clamp_min, clamp_max]; a voxel becomes observed with its first update and stays so; a voxel saturated at the bound in the update direction is not changed.", "quantifier": "every hit/miss sequence", "why_tests_cant": "unbounded histories", "anchors": ["voxblox/include/voxblox/integrator/occupancy_integrator.h: updateOccupancyVoxel"]}
{"id": "C24", "title": "Ray casting enumerates a connected chain of voxels", "statement": "For a valid ray the caster returns the start voxel first, then exactly as many further voxels as the L1 distance between start and end voxel, and consecutive voxels differ by at most one step along one axis towards the end point; it never yields more.", "quantifier": "all finite start and end points whose voxel indices fit an int64, less than 2^32 - 1 grid steps apart, and all prior contents of the caster object", "why_tests_cant": "all float rays", "anchors": ["voxblox/src/integrator/integrator_utils.cc: RayCaster::nextRayIndex, setupRayCaster"]}
{"id": "C25", "title": "Ray casting reaches the end voxel through voxels the ray crosses", "statement": "The last voxel returned for a ray is the voxel containing the end point, and each returned voxel is intersected by the segment.", "quantifier": "all start and end points", "why_tests_cant": "all rays; failing inputs are degenerate (axis aligned) or tie cases", "anchors": ["voxblox/src/integrator/integrator_utils.cc: RayCaster"]}
{"id": "C26", "title": "Approximate hash set answers about stored elements are right", "statement": "Between resets, an element reported present was either inserted, or is displaced only by an element with the same masked slot; directly after inserting an element it is reported present; replaceHash returns whether it changed the slot.", "quantifier": "every insertion history", "why_tests_cant": "unbounded histories and collisions", "anchors": ["voxblox/include/voxblox/utils/approx_hash_array.h: ApproxHashSet::isHashCurrentlyPresent, replaceHash"]}
{"id": "C27", "title": "Resetting the approximate hash set empties it", "statement": "After resetApproxSet no element is reported present until it is inserted again.", "quantifier": "every history of insertions and resets", "why_tests_cant": "stale entries depend on arbitrarily long histories and on a sliding offset", "anchors": ["voxblox/include/voxblox/utils/approx_hash_array.h: ApproxHashSet::resetApproxSet"]}
{"id": "C28", "title": "The bucket queue is a FIFO-within-priority queue that loses nothing", "statement": "After any sequence of pushes and pops the queue holds exactly the pushed and not yet popped elements, front is the oldest element of the lowest non-empty bucket, size/empty agree with the content, and push then pop of all elements returns them in non-decreasing bucket order when no push intervenes.", "quantifier": "every push/pop sequence", "why_tests_cant": "unbounded histories", "anchors": ["voxblox/include/voxblox/utils/bucket_queue.h: BucketQueue"]}
{"id": "C29", "title": "ESDF propagation leaves fixed and unobserved voxels alone", "statement": "Propagating distances through the open queue never changes the distance of a fixed voxel and never makes an unobserved voxel observed, whatever is in the queue.", "quantifier": "every ESDF layer and queue content", "why_tests_cant": "any map and queue", "anchors": ["voxblox/src/integrator/esdf_integrator.cc: processOpenSet, processRaiseSet", "voxblox/src/integrator/esdf_occ_integrator.cc: processOpenSet"]}
{"id": "C30", "title": "ESDF propagation is sound", "statement": "Each propagation step only moves a voxel distance towards zero through an observed neighbour by the neighbour distance; distances keep their sign, and every distance set by propagation equals the parent's distance plus the step length.", "quantifier": "every ESDF layer and queue content", "why_tests_cant": "any map", "anchors": ["voxblox/src/integrator/esdf_integrator.cc: processOpenSet"]}
{"id": "C31", "title": "Occupancy ESDF distances are distances of real paths to obstacles", "statement": "A batch update of the ESDF from an occupancy layer ends without aborting. Afterwards occupied voxels have distance 0, every observed free voxel's distance is the default or the length of a 26-connected path of observed voxels from an occupied voxel, and no such path (with proper prefixes below the maximum distance) nor the default is shorter. The distances do not depend on the order in which the blocks are visited.", "quantifier": "every occupancy layer, settings with the maximum distance at least two voxels, idle integrator and order of the blocks; updates of some blocks only are not included", "why_tests_cant": "any map", "anchors": ["voxblox/src/integrator/esdf_occ_integrator.cc: updateFromOccBlocks, processOpenSet"]}
{"id": "C32", "title": "A batch ESDF update can always be run", "statement": "updateFromTsdfLayerBatch rebuilds the ESDF from scratch for any integrator state reachable by API calls, without aborting.", "quantifier": "every history of API calls on an ESDF integrator", "why_tests_cant": "stale queue entries depend on call history", "anchors": ["voxblox/src/integrator/esdf_integrator.cc: addNewRobotPosition, updateFromTsdfLayerBatch, processOpenSet"]}
{"id": "C33", "title": "Marching cubes only uses interpolated edges", "statement": "For every sign pattern the triangle table refers only to edges whose end points have different signs, so every emitted vertex was interpolated; patterns and their triangles are in range; all-inside and all-outside cubes emit nothing.", "quantifier": "all corner SDF values", "why_tests_cant": "sign handling of zeros and NaN over all floats", "anchors": ["voxblox/src/mesh/marching_cubes.cc: kTriangleTable, kEdgeIndexPairs", "voxblox/include/voxblox/mesh/marching_cubes.h: meshCube, calculateVertexConfiguration, interpolateEdgeVertices"]}
{"id": "C34", "title": "The extracted surface is watertight between neighbouring cubes", "statement": "For any two cubes sharing a face (with the same corner values on it), the triangle edges the two cubes place on that face match each other with opposite orientation; inside a cube every other triangle edge is shared by exactly two triangles.", "quantifier": "all corner sign patterns of all grids", "why_tests_cant": "all 2^12 pairs per axis and unbounded grids", "anchors": ["voxblox/src/mesh/marching_cubes.cc: kTriangleTable"]}
{"id": "C35", "title": "Mesh extraction visits every cube of a block exactly once", "statement": "Extracting the mesh of a block evaluates the cube at every voxel index of the block exactly once, for every block size.", "quantifier": "every voxels_per_side", "why_tests_cant": "unbounded block sizes", "anchors": ["voxblox/include/voxblox/mesh/mesh_integrator.h: extractBlockMesh"]}
{"id": "C36", "title": "Cubes on block borders use the right voxels of neighbouring blocks", "statement": "For a cube at the border of a block each of its 8 corners is read from the voxel with the corresponding global index, in whichever neighbouring block it lies; the cube is skipped iff a needed block is missing or a needed voxel is not sufficiently observed.", "quantifier": "every block, border voxel and neighbour configuration", "why_tests_cant": "all combinations of borders and sizes", "anchors": ["voxblox/include/voxblox/mesh/mesh_integrator.h: extractMeshOnBorder, extractMeshInsideBlock"]}
{"id": "C37", "title": "Interpolated surface vertices lie on the cube edge", "statement": "The vertex interpolated on an edge with a sign change lies, up to float rounding, on that edge between its two end points: at the linear zero crossing, or at the midpoint if the two values differ by less than 1e-6. Coordinates the two end points share are reproduced exactly, and interpolating the same edge from its other end gives the same point up to rounding.", "quantifier": "all finite corner values and positions up to 2^100", "why_tests_cant": "all floats", "anchors": ["voxblox/include/voxblox/mesh/marching_cubes.h: interpolateVertex, interpolateEdgeVertices"]}
{"id": "C38", "title": "Mesh arrays stay consistent", "statement": "Meshing any sequence of cubes into a mesh, and concatenating meshes, keeps vertices, normals and indices the same length, a multiple of three, and every index valid.", "quantifier": "every sequence of cubes and meshes", "why_tests_cant": "unbounded sequences", "anchors": ["voxblox/include/voxblox/mesh/marching_cubes.h: meshCube", "voxblox/include/voxblox/mesh/mesh.h: concatenateMesh", "voxblox/include/voxblox/mesh/mesh_layer.h: getMesh"]}
{"id": "C39", "title": "Connecting meshes deduplicates vertices and keeps triangles", "statement": "createConnectedMesh returns a mesh in which every index is valid, no triangle has two equal vertices, every vertex comes from the input, vertices in the same tolerance cell are merged, and every input triangle with three distinct cells is kept in order. Every vertex keeps the colour it came with and every normal has length 1 up to rounding.", "quantifier": "every list of input meshes", "why_tests_cant": "unbounded inputs", "anchors": ["voxblox/include/voxblox/mesh/mesh_utils.h: createConnectedMesh"]}
{"id": "C40", "title": "Interpolation is trilinear", "statement": "Interpolating with the 8x8 table equals the trilinear formula of the 8 corner values; at a corner it returns that corner's value and it stays within the range of the 8 values.", "quantifier": "all corner values and offsets in [0,1]^3", "why_tests_cant": "continuous domain", "anchors": ["voxblox/include/voxblox/interpolator/interpolator_inl.h: getQVector, interpMember"]}
{"id": "C41", "title": "Interpolation uses the eight voxels around the point", "statement": "The voxels used to interpolate at a point are the 8 voxels whose centres surround the point, across block borders; if any needed block is missing the query reports failure.", "quantifier": "every point and block layout", "why_tests_cant": "all points and borders", "anchors": ["voxblox/include/voxblox/interpolator/interpolator_inl.h: setIndexes, getVoxelsAndQVector"]}
{"id": "C42", "title": "Centering a layer is a rigid shift", "statement": "centerBlocksOfLayer moves every block by the same index offset, keeps their number and voxels, and reports the translation that undoes the move.", "quantifier": "every non-empty layer of up to 2^40 blocks with indices up to 2^20 and block size between 2^-40 and 2^40 m", "why_tests_cant": "any set of blocks", "anchors": ["voxblox/include/voxblox/utils/layer_utils.h: centerBlocksOfLayer"]}
{"id": "C43", "title": "No map update is lost between integration, meshing and ESDF updates", "statement": "Whatever the interleaving of integration, mesh generation and ESDF updates, a block modified since the last mesh generation (ESDF update) is meshed (propagated) by the next one that clears flags; consuming one kind of flag does not clear the others.", "quantifier": "every sequence of integration, meshing and ESDF calls", "why_tests_cant": "unbounded histories", "anchors": ["voxblox/include/voxblox/mesh/mesh_integrator.h: generateMesh", "voxblox/src/integrator/esdf_integrator.cc: updateFromTsdfLayer", "voxblox/src/integrator/tsdf_integrator.cc: updateLayerWithStoredBlocks", "voxblox/include/voxblox/core/block.h: Update"]}
{"id": "C44", "title": "Layer comparison is an equivalence on content", "statement": "isSameLayer answers true exactly when both layers have the same geometry, the same block indices and same voxels up to the tolerance; it is reflexive and symmetric.", "quantifier": "all layer pairs", "why_tests_cant": "all layers, including NaN content", "anchors": ["voxblox/include/voxblox/utils/layer_utils.h: isSameLayer, isSameBlock", "voxblox/src/utils/layer_utils.cc: isSameVoxel"]}
{"id": "C45", "title": "Layer evaluation reports consistent statistics", "statement": "Evaluating a test layer against ground truth counts every observed voxel consistently (evaluated + ignored = overlapping), the maximum error bounds every evaluated error, the minimum error is the smallest evaluated error and RMSE lies between them.", "quantifier": "all layer pairs and modes", "why_tests_cant": "all layers", "anchors": ["voxblox/include/voxblox/utils/evaluation_utils.h: evaluateLayersRmse, VoxelEvaluationDetails", "voxblox/src/utils/evaluation_utils.cc: computeVoxelError"]}
{"id": "C46", "title": "Clearing or filling a sphere affects exactly the voxels in the sphere", "statement": "getSphereAroundPoint returns exactly the voxels whose centre offset is within the radius, each once; clearing and filling set exactly those voxels according to their rule and leave all others unchanged.", "quantifier": "every centre, radius and layer", "why_tests_cant": "all radii and layers", "anchors": ["voxblox/include/voxblox/utils/planning_utils_inl.h: getSphereAroundPoint, clearSphereAroundPoint, fillSphereAroundPoint"]}
{"id": "C47", "title": "Blended colours are valid colours between the inputs", "statement": "Blending two colours with non-negative weights of positive sum gives in each channel a value between the two input channels (no wrap-around).", "quantifier": "all colours and weights", "why_tests_cant": "all float weights", "anchors": ["voxblox/include/voxblox/core/common.h: Color::blendTwoColors"]}
{"id": "C48", "title": "Timing statistics are those of the recorded samples", "statement": "After any sequence of samples the accumulator's sample count, sum, minimum, maximum and rolling mean are those of the samples (of the last N for the rolling mean), the reported rate is the inverse of the rolling mean, and distinct timer tags get distinct handles also after a reset.", "quantifier": "every sample and tag sequence", "why_tests_cant": "unbounded histories; ring buffer wrap", "anchors": ["voxblox/include/voxblox/utils/timing.h: Accumulator::Add, RollingMean", "voxblox/src/utils/timing.cc: GetHandle, Reset, AddTime"]}
{"id": "C49", "title": "A layer message applied to a layer has the announced effect", "statement": "Applying a layer message: kUpdate overwrites the listed blocks, kMerge merges listed blocks into existing ones, kReset makes the layer equal to the message; blocks not listed are untouched by kUpdate and kMerge; mismatching type or geometry changes nothing.", "quantifier": "every layer, message and action", "why_tests_cant": "all states and messages", "anchors": ["voxblox_ros/include/voxblox_ros/conversions_inl.h: serializeLayerAsMsg, deserializeMsgToLayer"]}
{"id": "C50", "title": "A subscriber's map follows the published map", "statement": "A subscriber that receives every published map message holds the same map as the publisher after each publication, whatever the publisher did in between (integration, removing distant blocks, clearing).", "quantifier": "every history of map changes and publications", "why_tests_cant": "unbounded histories", "anchors": ["voxblox_ros/src/tsdf_server.cc: publishMap, processPointCloudMessageAndInsert, clear, tsdfMapCallback", "voxblox_ros/include/voxblox_ros/conversions_inl.h"]}
{"id": "C51", "title": "Point clouds are integrated in order, at most once, from a bounded queue", "statement": "Whatever the arrival of point clouds and availability of transforms, clouds are integrated in arrival order, each at most once; after every call fewer than 10 remain queued; a cloud is dropped only by throttling or when the queue is full and its transform is unavailable.", "quantifier": "every sequence of messages and transform availability", "why_tests_cant": "unbounded histories", "anchors": ["voxblox_ros/src/tsdf_server.cc: insertPointcloud, getNextPointcloudFromQueue"]}
{"id": "C52", "title": "Pose lookup interpolates between the poses around the timestamp", "statement": "Looking up a pose at a time t in the pose queue returns a pose stamped within the tolerance of t or interpolates between the two consecutive poses stamped before and after t; it fails only if t is outside the queue range; poses before the returned one are dropped and later ones kept.", "quantifier": "every queue of increasing stamps and query time", "why_tests_cant": "any queue", "anchors": ["voxblox_ros/src/transformer.cc: lookupTransformQueue, transformCallback"]}
{"id": "C53", "title": "Intensity integration writes to the voxels along the ray", "statement": "Integrating an intensity reading changes only voxels on the bearing ray within the propagation radius around the surface intersection, and each at its own location.", "quantifier": "every TSDF layer, ray and intensity", "why_tests_cant": "any geometry relative to block borders", "anchors": ["voxblox/src/integrator/intensity_integrator.cc: addIntensityBearingVectors"]}
{"id": "C54", "title": "Simulated distance is the clamped distance to the nearest object", "statement": "The simulated distance at a point is min(max_dist, nearest object distance), in the generated layer also clamped below by -max_dist, with the colour of the nearest object; each in-bounds voxel is set.", "quantifier": "every list of objects and point", "why_tests_cant": "any world", "anchors": ["voxblox/src/simulation/simulation_world.cc: getDistanceToPoint", "voxblox/include/voxblox/simulation/simulation_world_inl.h: generateSdfFromWorld"]}
{"id": "C55", "title": "Mesh messages represent every vertex within quantisation error", "statement": "Each vertex of a meshed block is encoded without aborting and decodes to within one quantisation step of its position.", "quantifier": "every block size, block index and vertex of the block's mesh", "why_tests_cant": "continuous positions and all block sizes", "anchors": ["voxblox_ros/include/voxblox_ros/mesh_vis.h: generateVoxbloxMeshMsg", "voxblox_rviz_plugin/src/voxblox_mesh_visual.cc: setMessage"]}
{"id": "C56", "title": "Concurrent updates of one voxel are atomic", "statement": "With any number of threads updating voxels under the per-voxel lock, the final value of each voxel is the result of applying all its updates one after the other in some order; none is lost.", "quantifier": "every schedule and voxel assignment", "why_tests_cant": "thread schedules", "anchors": ["voxblox/src/integrator/tsdf_integrator.cc: updateTsdfVoxel (mutexes_)", "voxblox/include/voxblox/utils/approx_hash_array.h: ApproxHashArray::get"]}
{"id": "C57", "title": "ICP mini-batches are disjoint and cover the requested prefix", "statement": "Under any thread schedule the ICP threads process disjoint mini-batches that together cover the requested fraction of the shuffled cloud, and each successful step is counted once and fused once into the pose; each step starts from the initial guess fused with earlier successful steps; the threads never deadlock and all return under every fair schedule.", "quantifier": "every schedule, every number of threads up to 2^24, every cloud of fewer than 2^24 points, every positive batch size and every fraction between 0 and 1", "why_tests_cant": "thread schedules", "anchors": ["voxblox/src/alignment/icp.cc: runThread, runICP"]}
{"id": "C58", "title": "The index recovered from a block's origin is the block's index", "statement": "block_index() recomputes a block's index from its stored metric origin; it returns exactly the index the layer allocated the block for, so saving, loading and publishing blocks by origin addresses the same block.", "quantifier": "every block index with |i| <= 2^20, every block size up to 2^16 and every sane voxel size", "why_tests_cant": "float rounding for every voxel size", "anchors": ["voxblox/include/voxblox/core/block.h: block_index", "voxblox/include/voxblox/core/layer.h: allocateNewBlock", "voxblox/include/voxblox/core/common.h: getGridIndexFromOriginPoint, getOriginPointFromGridIndex"]}
{"id": "C59", "title": "Concurrent insertion into the approximate set loses no element", "statement": "When any number of threads insert elements into the approximate hash set at the same time, every element that was not stored before and whose insertion returned is reported as newly inserted to at least one of the threads inserting it, and nothing is found in the set that was neither there before nor inserted.", "quantifier": "every set content, number of threads, elements and interleaving of the atomic loads and stores", "why_tests_cant": "thread schedules", "anchors": ["voxblox/include/voxblox/utils/approx_hash_array.h: ApproxHashSet::replaceHash, isHashCurrentlyPresent"]}
{"id": "C60", "title": "An observation moves the stored distance to the weighted mean", "statement": "A voxel update whose total weight reaches 1e-6 stores the weighted mean of the old distance and the measured distance, limited to the truncation band, up to a relative rounding error of 2^-20, and adds the observation weight up to the maximum weight; an update below that total weight changes nothing.", "quantifier": "every voxel reachable by updates and every finite measurement up to 2^40", "why_tests_cant": "float rounding over all values", "anchors": ["voxblox/src/integrator/tsdf_integrator.cc: updateTsdfVoxel"]}
{"id": "C61", "title": "The measured distance is the distance along the ray", "statement": "The signed distance assigned to a voxel is the distance from sensor to surface point minus the projection of the voxel centre on the ray, up to a relative error of 2^-19 of the ranges; for a voxel centre on the ray it is the remaining distance to the surface, positive in front of it and negative behind it.", "quantifier": "all coordinates up to 2^40 m with the point and the voxel at least 2^-30 m from the sensor", "why_tests_cant": "accumulated float rounding for all geometries", "anchors": ["voxblox/src/integrator/tsdf_integrator.cc: computeDistance"]}
{"id": "C62", "title": "Incremental meshing equals meshing everything", "statement": "generateMesh replaces exactly the meshes of the blocks it works on by the current surface and leaves all others alone, and with clear_updated_flag it clears exactly the mesh flags of those blocks; after meshing only the updated blocks every block mesh is the mesh that meshing all blocks would give.", "quantifier": "every layer, history of updates and meshings", "why_tests_cant": "unbounded layers and histories; errors only show on block borders", "anchors": ["voxblox/include/voxblox/mesh/mesh_integrator.h: generateMesh, updateMeshForBlock, extractMeshOnBorder", "voxblox/src/integrator/tsdf_integrator.cc: allocateStorageAndGetVoxelPtr"]}
{"id": "C63", "title": "Neighbouring ESDF distances differ by at most one step", "statement": "After a batch ESDF update, two neighbouring observed voxels outside the fixed band are on the same side of the surface and the further one is at most one step length plus the configured update threshold further from the surface than the nearer one.", "quantifier": "every TSDF whose two sides only meet inside the fixed band, every valid configuration in the default mode, every idle integrator", "why_tests_cant": "any map; the propagation order depends on the whole map", "anchors": ["voxblox/src/integrator/esdf_integrator.cc: updateFromTsdfLayerBatch, processOpenSet"]}
{"id": "C64", "title": "A batch ESDF update takes over the TSDF", "statement": "After updateFromTsdfLayerBatch the ESDF has exactly the voxels of the TSDF; a voxel is observed exactly if its TSDF weight reaches the minimum weight or the occupied crust is filled in, a seen voxel within the fixed band is fixed and has exactly the TSDF distance, and no other voxel is fixed.", "quantifier": "every regular TSDF layer, every state of the integrator, every mode", "why_tests_cant": "any map and integrator state", "anchors": ["voxblox/src/integrator/esdf_integrator.cc: updateFromTsdfLayerBatch, updateFromTsdfBlocks"]}
{"id": "C65", "title": "ESDF distances are path lengths", "statement": "After a batch ESDF update every observed voxel has the sign of the TSDF, and its distance is the default distance or is obtained by following parents through observed neighbours to a fixed voxel, each step adding its length up to the update threshold.", "quantifier": "every TSDF whose two sides only meet inside the fixed band, every valid configuration in the default mode, every idle integrator", "why_tests_cant": "any map; parents are overwritten during the propagation", "anchors": ["voxblox/src/integrator/esdf_integrator.cc: updateFromTsdfLayerBatch, processOpenSet"]}
{"id": "C66", "title": "Nearest-voxel queries answer with the voxel containing the point", "statement": "A distance query without interpolation returns the distance of the voxel whose cell contains the point (up to a stated rounding tolerance at cell borders) and reports failure exactly when that voxel is not allocated or not observed; it never reads out of bounds.", "quantifier": "every layer built through the API and every point within 2^16 voxels of the origin", "why_tests_cant": "Depends on float rounding at every cell and block border.", "anchors": ["voxblox/include/voxblox/interpolator/interpolator_inl.h: getNearestDistance"]}
{"id": "C67", "title": "Casting a ray onto the surface ends and reports a point near it", "statement": "Casting a ray against a TSDF layer ends, and a reported intersection is a point of the ray at most two voxel sides past a sample within the range where the layer has an observed voxel less than a voxel side from the surface.", "quantifier": "every TSDF layer, origin and bearing; range at most 2^22 voxels", "why_tests_cant": "the stride depends on stored distances; termination of a float loop over all layers", "anchors": ["voxblox/include/voxblox/include/voxblox/utils/distance_utils.h: getSurfaceDistanceAlongRay"]}
{"id": "C68", "title": "Simulated objects report the signed distance to their surface", "statement": "For each simulated object the distance of a point is the signed Euclidean distance to the object's surface, up to float rounding: spheres, axis-aligned cubes, planes with a unit normal, upright cylinders.", "quantifier": "every centre, size and point within the float range given", "why_tests_cant": "continuous geometry; every position relative to faces, edges and corners", "anchors": ["voxblox/include/voxblox/simulation/objects.h: Sphere, Cube, PlaneObject, Cylinder :: getDistanceToPoint"]}
{"id": "C69", "title": "A simulated view reports the nearest surface of each pixel", "statement": "A simulated view contains at most one point per pixel, in pixel order, never one that is not a number; it lies on the pixel's ray at a distance in [0, max] and is the nearest hit among all objects with that object's colour; a pixel is missing only if nothing is hit.", "quantifier": "every world, viewpoint, range and list of pixel directions", "why_tests_cant": "all worlds and rays, including rays in the plane of a face", "anchors": ["voxblox/src/simulation/simulation_world.cc: getPointcloudFromViewpoint", "voxblox/include/voxblox/simulation/objects.h: getRayIntersection"]}
{"id": "C70", "title": "A viewer that receives every mesh message shows the server's meshes", "statement": "After any sequence of meshing, clearing of distant meshes and sent messages that a viewer receives, the next message can be generated and shown without failing, and afterwards the viewer shows for every block the server's current mesh, vertex by vertex within one quantisation step, and nothing for blocks without a mesh; the server has nothing left to send.", "quantifier": "every history of meshing, clearing and sending; blocks of at least four voxels per side not too far from the origin; no lost message", "why_tests_cant": "arbitrary histories of incremental updates", "anchors": ["voxblox_ros/include/voxblox_ros/mesh_vis.h: generateVoxbloxMeshMsg", "voxblox_rviz_plugin/src/voxblox_mesh_visual.cc: setMessage", "voxblox/include/voxblox/mesh/mesh_layer.h: clearDistantMesh", "voxblox/include/voxblox/mesh/mesh_integrator.h: generateMesh"]}
{"id": "C71", "title": "Observations are weighted by depth, by how far behind the surface they are, and by sparsity", "statement": "With constant weights every point weighs 1. Otherwise a point at camera depth z weighs 1/z^2 (0 when |z| is at most 1e-6). What a voxel receives is that weight, decreased linearly from full at one voxel behind the surface to zero at the truncation distance when drop-off is on, and multiplied by the sparsity factor inside the truncation band when sparsity compensation is on; all up to stated float rounding.", "quantifier": "every point with |z| up to 2^60, every configuration with truncation at least 2^-30 m beyond the voxel size and at most 2^40 m, sparsity factor in [0, 2^20], every weight and signed distance up to 2^40", "why_tests_cant": "the weight is a float expression with two switches and three regions of signed distance; tests sample a few of them", "anchors": ["voxblox/src/integrator/tsdf_integrator.cc: getVoxelWeight, updateTsdfVoxel"]}
{"id": "C72", "title": "Mesh triangles face the free side and carry their unit normal", "statement": "Wherever the vertices of a marching cubes triangle lie strictly inside their cube edges, the triangle is not degenerate and is oriented so that its counterclockwise side faces from the voxels behind the surface to those in front of it. In the mesh of a block each triangle stores the same normal for its three vertices, and that normal is the unit vector of the counterclockwise direction up to 2^-19 over the sine of the angle at the first vertex.", "quantifier": "every sign pattern of the eight corners and every position of the vertices inside their edges; every triangle of every extracted block mesh with coordinates up to 2^20, doubled area at least 2^-40 and an angle whose sine is at least 2^-16", "why_tests_cant": "256 sign patterns with 820 triangles, each with a continuum of vertex positions, and float rounding in the cross product", "anchors": ["voxblox/include/voxblox/mesh/marching_cubes.h: MarchingCubes::meshCube, interpolateEdgeVertices", "voxblox/src/mesh/marching_cubes.cc: kTriangleTable, kEdgeIndexPairs", "voxblox/include/voxblox/mesh/mesh_integrator.h: updateMeshForBlock, extractBlockMesh"]}
{"id": "C73", "title": "The ray of a measurement covers the configured interval", "statement": "The ray cast for a surface point runs from the sensor (with voxel carving) or from one truncation distance before the point (without) to one truncation distance behind the point. A clearing ray ends one truncation distance before the point or at the maximum ray length, whichever is nearer, and without carving consists of that end only. It is cast from the near or from the far end as asked. The first voxel visited contains the first end, and there are as many further voxels as grid steps to the voxel of the other end, up to stated float rounding.", "quantifier": "every sensor position and point with coordinates up to 2^15 m at least 2^-20 m apart, truncation and maximum length up to 2^15 m, voxel sizes from 2^-10 to 2^20 m, all combinations of the flags", "why_tests_cant": "eight combinations of flags over real directions; normalisation, clamping and scaling all round", "anchors": ["voxblox/src/integrator/integrator_utils.cc: RayCaster::RayCaster, setupRayCaster, nextRayIndex"]}
{"id": "C74", "title": "Integrating a cloud observes exactly the voxels on the rays of its points, whatever the threads do", "statement": "Calling integratePointCloud of the simple or the fast TSDF integrator changes the map as follows and in no other way. Every point nearer than the minimum ray length is ignored, every point farther than the maximum is used for clearing (if clearing or a freespace cloud allows it) or ignored, every other point is a surface (or clearing in a freespace cloud). Each used point gives one observation, with its own colour and weight, to every voxel on its ray; the fast integrator gives it to an initial piece of the ray cast from the far end, cut only after more than max_consecutive_ray_collisions voxels in a row were already seen. The voxels end up with the result of these observations in some order; blocks are allocated exactly where an observed voxel needs one; these blocks, and no others, are marked as updated for all consumers; everything else is untouched.", "quantifier": "all clouds, poses, configurations, maps with blocks of 2^n voxels per side, numbers of threads, distributions of points to threads, schedules, and answers of the fast integrator's approximate sets; rays within 2^24 voxels of the origin", "why_tests_cant": "thread schedules and clouds are unbounded; tests run few schedules on few clouds", "anchors": ["voxblox/src/integrator/tsdf_integrator.cc: SimpleTsdfIntegrator::integratePointCloud, integrateFunction", "voxblox/src/integrator/tsdf_integrator.cc: FastTsdfIntegrator::integratePointCloud, integrateFunction", "voxblox/src/integrator/tsdf_integrator.cc: allocateStorageAndGetVoxelPtr, updateLayerWithStoredBlocks", "voxblox/include/voxblox/integrator/tsdf_integrator.h: isPointValid"]}
{"id": "C75", "title": "Merged integration bundles the points of a voxel into one ray", "statement": "Calling integratePointCloud of the merged TSDF integrator groups the used points by the voxel they fall into, separately for surface and clearing points, every point in exactly one group. Each group stands for one merged point; each voxel on its ray gets exactly one observation of the merged point, except, with anti-grazing, the voxels of other surface groups. A surface group is merged into the weighted mean of its points, the sum of their weights and a colour between theirs, a clearing group into its first point; points whose weight is below 1e-6 do not count. All surface groups are observed before all clearing groups; nothing else in the map changes.", "quantifier": "all clouds, poses, configurations, maps with blocks of 2^n voxels per side, numbers of threads, orders of points, iteration orders of the hash maps and schedules; rays within 2^24 voxels of the origin", "why_tests_cant": "thread schedules, hash map iteration orders and clouds are unbounded", "anchors": ["voxblox/src/integrator/tsdf_integrator.cc: MergedTsdfIntegrator::integratePointCloud, bundleRays, integrateVoxel, integrateVoxels, integrateRays", "voxblox/include/voxblox/integrator/tsdf_integrator.h: isPointValid"]}
{"id": "C76", "title": "Integrating sane clouds never aborts, hangs or runs into undefined behaviour", "statement": "Integrating a point cloud into a TSDF map with the simple, fast or merged integrator, configured within range, returns: no check aborts the process and no undefined behaviour (out-of-range access or out-of-range float to integer conversion) occurs, however the worker threads are scheduled, and the call completes once every worker has made a bounded number of steps (at most 2^24 per point). The resulting map again satisfies the conditions, so this holds for every sequence of such clouds.", "quantifier": "all configurations in range, all maps whose voxels lie within the truncation band, all clouds of byte-coloured finite points whose rays are non-degenerate and stay within 2^20 voxels of the map origin, all ways to distribute points over threads, all schedules", "why_tests_cant": "The number of combinations of point distributions and thread schedules is unbounded, and undefined behaviour may stay silent in a test.", "anchors": ["voxblox/src/integrator/tsdf_integrator.cc: SimpleTsdfIntegrator, MergedTsdfIntegrator, FastTsdfIntegrator, TsdfIntegratorBase::updateTsdfVoxel", "voxblox/src/integrator/integrator_utils.cc: RayCaster"]}
{"id": "C77", "title": "One occupancy update per voxel and cloud, hits win", "statement": "Integrating a point cloud into an occupancy map gives every voxel at most one update: a hit if it is the last voxel on the ray of a surface point (of at least three voxels), otherwise a miss if it lies on a ray before the last voxel, or on the ray of a point beyond the maximum range, which is cut there. Each surface point produces its hit unless its voxel already has one or its ray has fewer than three voxels; rays to points nearer than the minimum range do nothing. No other voxel changes, the blocks of the updated voxels exist afterwards and are marked for every consumer, all other blocks stay as they were. Log odds stay clamped, hits never lower and misses never raise them. The call completes for all clouds whose rays fit.", "quantifier": "all configurations, maps, sensor poses and clouds whose rays are non-degenerate and stay within 2^20 voxels of the map origin, all orders of the hash sets involved", "why_tests_cant": "Needs all combinations of overlapping rays; a voxel updated twice differs only slightly from one updated once.", "anchors": ["voxblox/include/voxblox/integrator/occupancy_integrator.h: OccupancyIntegrator::integratePointCloud, updateOccupancyVoxel", "voxblox/include/voxblox/integrator/integrator_utils.h: castRay"]}
{"id": "C78", "title": "Distance and gradient queries mean what they say", "statement": "For a map built through the API, the gradient at a point is reported exactly when the block of the point exists and the distance is known one voxel away on both sides along every axis, and each component is then the central difference of these distances up to rounding. If the observed voxels sample a plane, the interpolated distance and gradient are those of the plane up to the error of the samples and rounding. The adaptive query falls back to one-sided differences and to the voxel's own distance continued along the gradient; it succeeds exactly when the voxel and, per axis, one neighbour are observed (or all interpolated values exist). The queries of the ESDF map always answer, leave the distance alone on failure, agree with each other on success, and report a position as observed exactly when the nearest-voxel distance query succeeds.", "quantifier": "all layers with a sane voxel size and at most 1024 voxels per side, all finite positions within 65534 voxels of the origin, all finite voxel values up to 2^80, every order in which the matrix products are summed", "why_tests_cant": "Rounding at voxel and block borders, missing neighbours in any of 2^6 combinations and the order of summation cannot be enumerated by tests.", "anchors": ["voxblox/include/voxblox/interpolator/interpolator_inl.h: getDistance, getGradient, getAdaptiveDistanceAndGradient", "voxblox/src/core/esdf_map.cc: getDistanceAtPosition, getDistanceAndGradientAtPosition, isObserved"]}
{"id": "C79", "title": "Batch queries are the single queries; slices write exactly what they report", "statement": "A batch of distance, gradient or observedness queries gives for each position what the single query gives (a failed distance query leaves its entry), leaves further entries of longer arrays alone, and is refused before anything is written exactly when an output array is too short. A slice along a coordinate plane reports, each once and up to the maximum number (at least one), the voxels with the centre within one voxel of the plane in the blocks with the origin within one block of it: the observed ones of an ESDF map, those of blocks marked to have data of a TSDF map. It writes exactly the reported entries, never outside the position and distance arrays, and throws exactly when it was not stopped by the maximum and the entries did not fit.", "quantifier": "all maps built through the API, all positions within 65534 voxels of the origin, all planes, all array lengths and maxima", "why_tests_cant": "Array lengths, plane positions and hash map contents are unbounded; overruns only show when a particular map meets a particular plane.", "anchors": ["voxblox/src/core/esdf_map.cc: batchGetDistanceAtPosition, batchGetDistanceAndGradientAtPosition, batchIsObserved, coordPlaneSliceGetDistance", "voxblox/src/core/tsdf_map.cc: coordPlaneSliceGetDistanceWeight"]}
{"id": "C80", "title": "Colour maps give every value the colour of its place in the range", "statement": "Every finite number has a rainbow colour: opaque, fully saturated and, up to one step per channel, the colour of its fraction on the colour circle. With a usable range (finite ends, lower below upper, length at most 2^127), every float value, also an infinite one or NaN, has a colour in the grayscale, rainbow, ironbow and inverse maps. It is the colour of the place of the value in the range up to rounding to bytes; values below the range and NaN get the colour of the lower end, values above that of the upper end. Grayscale is monotone and exact at the ends. No lookup casts out of range or reads outside the palette.", "quantifier": "all finite doubles, all usable ranges, all float values including NaN and infinities", "why_tests_cant": "The casts to bytes and the palette index are undefined outside their range; whether rounding can leave it cannot be told from samples among 2^32 values and 2^64 ranges.", "anchors": ["voxblox/include/voxblox/core/color.h: rainbowColorMap, grayColorMap", "voxblox/include/voxblox/utils/color_maps.h: GrayscaleColorMap, InverseGrayscaleColorMap, RainbowColorMap, InverseRainbowColorMap, IronbowColorMap, IrrationalIdColorMap"]}
{"id": "C81", "title": "A camera model sees exactly its frustum and bounds it by a box", "statement": "For every camera pose, positive near distance, larger far distance and opening angles below 180 degrees, a point is reported in view exactly when, seen from the camera, it lies between the near and far distances along the viewing axis and within the horizontal and vertical opening angles (reading the plane arithmetic as exact). In float arithmetic the report is right for every point that is farther from the six planes through the stored corners than a rounding band, 2^-16 of the largest coordinate over the sine of the angle between the two edges that span the plane. Every point in view lies in every box that holds the eight corners. The reported axis aligned bounding box holds all transformed corners and is touched by one on each side (in float arithmetic).", "quantifier": "all rigid poses, all near and far distances with 0 < near < far, all opening angles, all points; in floats all eight corners and points with coordinates up to 2^20 whose sides are not degenerate; for the box all lists of finite corners", "why_tests_cant": "The six planes are set up from triples of corners whose order decides which side counts as inside; a wrong order shows only for particular points, and poses and points are a continuum.", "anchors": ["voxblox/src/utils/camera_model.cc: setFromPoints, isPointInside, setIntrinsicsFromFoV, calculateBoundingPlanes, isPointInView", "voxblox/include/voxblox/utils/camera_model.h: Plane, CameraModel"]}
{"id": "C82", "title": "PLY files are valid and hold exactly the mesh", "statement": "The file written for a mesh is a valid ascii PLY file: a reader that follows its header finds, for every vertex of the mesh in order, its coordinates (to six digits), its normal and its colour, for every three indices one face with those indices, and nothing else. For a mesh layer nothing is written and false is returned if there is no vertex at all; otherwise the file holds the concatenated mesh or the connected mesh. For the incremental writer, whatever sequence of calls follows the announcement, the file is valid exactly if the announced number of vertices has been accepted, and then holds the accepted vertices.", "quantifier": "all meshes whose arrays fit together, with finite coordinates and at most 2^31 vertices; all mesh layers with consistent meshes; all sequences of calls of the incremental writer after the announcement; both choices of connected or plain mesh", "why_tests_cant": "The header is computed before and separately from the body, so validity is a statement about every combination of sizes and optional arrays and every call sequence; tests write a few meshes and do not read them back.", "anchors": ["voxblox/src/io/mesh_ply.cc: outputMeshAsPly, outputMeshLayerAsPly, convertMeshLayerToMesh", "voxblox/include/voxblox/io/ply_writer.h: PlyWriter"]}
{"id": "C83", "title": "Clouds show exactly the voxels they should", "statement": "A cloud made from a layer for viewing or for a file has exactly one point for every voxel of the layer that meets the cloud's condition, and none for any other voxel. The point carries the voxel's colour, distance or intensity and sits at the voxel's centre up to rounding of a small part of a voxel. The conditions are: TSDF voxels with weight above 0 (all, or only those nearer to a surface than a given distance), with weight above 1e-3 (distances), occupied ones (distance at most one voxel); observed ESDF voxels (all, or only those at least a given distance from an obstacle); intensity voxels with weight above 1e-3; occupancy voxels with probability above 0.7; for PLY files observed voxels within the largest distance. In PLY clouds the hue falls linearly from 0.66 at minus the colour range to 0 at plus the colour range, and distances beyond are cut off there; points are added to the cloud given.", "quantifier": "every layer built by the API with voxel size 2^-40..2^40 and up to 2^10 voxels per side whose stored numbers are finite, every threshold, colour range > 0 and previous cloud; positions for blocks within 2^17 voxels of the origin", "why_tests_cant": "Tests look at a few layers; which voxel appears, once and where, must hold for every set of blocks, order and voxel content.", "anchors": ["voxblox_ros/include/voxblox_ros/ptcloud_vis.h: createColorPointcloudFromLayer, createOccupancyBlocksFromLayer, create*PointcloudFrom*Layer, visualize*", "voxblox/include/voxblox/io/sdf_ply.h: convertVoxelGridToPointCloud", "voxblox/src/io/sdf_ply.cc: getColorFromVoxel"]}
{"id": "C84", "title": "A slice shows the layer of voxels the plane lies in", "statement": "A distance slice of a TSDF or ESDF layer along an axis at a given coordinate has exactly one point, at the voxel's centre and carrying its distance, for every observed voxel of the layer of voxels that contains the plane, and no other point. A plane exactly on a boundary between voxels shows the voxels above it.", "quantifier": "every TSDF or ESDF layer built through the API whose voxels lie within 2^17 voxels of the origin and measure at least 1e-5 m; every axis; every plane within 65536 voxels of the origin.", "why_tests_cant": "The plane is compared with rounded voxel centres after a remainder and a conditional shift; a test looks at a few planes, while errors appear only for some fractions of a voxel.", "anchors": ["voxblox_ros/include/voxblox_ros/ptcloud_vis.h: createDistancePointcloudFromTsdfLayerSlice, createDistancePointcloudFromEsdfLayerSlice, visualizeDistanceIntensityTsdfVoxelsSlice, visualizeDistanceIntensityEsdfVoxelsSlice"]}
{"id": "C85", "title": "Withdrawing an obstacle forgets every distance that came from it", "statement": "When ESDF voxels are withdrawn (an obstacle moved away or became unknown), every voxel that had its distance from them, directly or through other voxels, is set back to the default distance on its side of the surface and loses its parent. Every other voxel keeps its distance and parent. Every voxel next to a withdrawn or forgotten one that the propagation may change is put into the open queue, so that the gap can be filled again. The process always ends and does not fail.", "quantifier": "every ESDF layer (voxels within 2^24 of the origin, quasi-Euclidean distances), every set of withdrawn voxels of the layer and every state of the queue; the parents may form any pattern, cycles included", "why_tests_cant": "The voxels that depend on an obstacle form chains of any length and shape; a test follows a few.", "anchors": ["voxblox/src/integrator/esdf_integrator.cc: processRaiseSet", "voxblox/include/voxblox/utils/bucket_queue.h: BucketQueue"]}
{"id": "C86", "title": "Transforming a layer carries its content to the transformed place", "statement": "transformLayer writes to a voxel of the output layer what the input layer says about the place the voxel's centre comes from: the trilinear blend of distance, weight and colour if the eight voxels around it are observed, otherwise a copy of the voxel it lies in, otherwise nothing. Output blocks that receive nothing and held nothing are not created; blocks elsewhere are unchanged. Every output block the transformed content reaches is treated so. Resampling into the same geometry keeps every observed voxel.", "quantifier": "every TSDF input layer (at most 32 voxels per side) and output layer of any other resolution, every transformation and its inverse as functions on points, every iteration order of the hash set, voxels whose source lies within 512 voxels of the origin", "why_tests_cant": "Which blocks are visited depends on the pose and on the two block sizes in a way a few poses do not exercise; the existing test uses one pose and checks nothing at the rim.", "anchors": ["voxblox/include/voxblox/integrator/merge_integration.h: transformLayer, resampleLayer, naiveTransformLayer, mergeLayerAintoLayerB", "voxblox/include/voxblox/interpolator/interpolator_inl.h: getVoxel, interpVoxel"]}
{"id": "C87", "title": "A robot position frees what is around it and never overwrites a measurement", "statement": "addNewRobotPosition ends; within clear_sphere_radius, voxels never seen or only assumed so far become free at the default distance; within occupied_sphere_radius but outside the inner sphere, voxels never seen become occupied at minus the default distance; both are marked hallucinated. Voxels that were measured, and all voxels elsewhere, keep their values. The previously assumed voxels of the inner sphere are scheduled to be raised, the blocks of all overwritten voxels for the next update, and the known voxels of the outer sphere are queued once, with their distances. clear() drops everything scheduled and keeps the map.", "quantifier": "every ESDF layer the API builds (at most 2^10 voxels per side), every position and radii within 2^16 voxels, every valid configuration, every previous history of the queue short of 2^63 entries", "why_tests_cant": "The two spheres overlap, share blocks and meet arbitrary earlier content, including what earlier positions assumed; tests use one position in an empty map.", "anchors": ["voxblox/include/voxblox/integrator/esdf_integrator.h: EsdfIntegrator::clear", "voxblox/src/integrator/esdf_integrator.cc: EsdfIntegrator::addNewRobotPosition", "voxblox/include/voxblox/utils/planning_utils_inl.h: getAndAllocateSphereAroundPoint"]}
{"id": "C88", "title": "The bounds of a map enclose it tightly", "statement": "computeMapBoundsFromLayer returns a box that holds the centre of every voxel of every allocated block exactly, without a tolerance; each of its six faces is less than 0.65 voxels from the centre of such a voxel; and at a position more than 0.2 voxels outside the box the layer has no block.", "quantifier": "every non-empty layer of any voxel type, at most 2^10 voxels per side, blocks within 2^17 voxels of the origin, any set of blocks in any order; positions within 2^18 voxels", "why_tests_cant": "The bounds come from float products and sums with a rounding each; that no voxel centre sticks out by an ulp has to hold for all sizes and indices.", "anchors": ["voxblox/include/voxblox/utils/planning_utils_inl.h: computeMapBoundsFromLayer", "voxblox/include/voxblox/core/layer.h: Layer::getBlockPtrByCoordinates"]}
{"id": "C89", "title": "Weight queries agree with distance queries", "statement": "getWeight with interpolation answers exactly where the distance query does, with the trilinear interpolation of the weights of the same eight voxels up to rounding; in an ESDF the answer is exactly 1. Without interpolation it is the weight of the voxel whose cell contains the point, and fails when that voxel is not observed. TsdfMap::getWeightAtPosition answers the same for the position cast to float, widens the weight without loss, and leaves the caller's value untouched on failure.", "quantifier": "every layer the API builds (at most 2^10 voxels per side), every content with finite weights, every position within 2^16 voxels, every order of summation in the products", "why_tests_cant": "Positions near block borders and cell borders, missing neighbours and the order in which vectorised code adds terms cannot be enumerated.", "anchors": ["voxblox/include/voxblox/interpolator/interpolator_inl.h: Interpolator::getWeight", "voxblox/include/voxblox/interpolator/interpolator_inl.h: Interpolator::getNearestDistanceAndWeight", "voxblox/src/core/tsdf_map.cc: TsdfMap::getWeightAtPosition"]}
{"id": "C90", "title": "Saving the maps of a server and loading them restores them", "statement": "saveMap followed by loadMap, with any earlier content of the file and of the loading server (same voxel sizes and blocks), succeeds and restores every saved block of the TSDF and of the ESDF with its voxels, while blocks at other places keep their content.", "quantifier": "every pair of maps (any number of blocks), every earlier file content, every earlier content of the loading server", "why_tests_cant": "The claim ranges over all maps and over the positions of buffer boundaries in the file; a test loads a few maps.", "anchors": ["voxblox_ros/src/esdf_server.cc: EsdfServer::saveMap", "voxblox_ros/src/esdf_server.cc: EsdfServer::loadMap", "voxblox_ros/src/tsdf_server.cc: TsdfServer::saveMap", "voxblox_ros/src/tsdf_server.cc: TsdfServer::loadMap"]}
{"id": "C91", "title": "A point cloud message is integrated point by point, without the invalid points", "statement": "When a server receives a point cloud message (no ICP), the integrator is given exactly the points of the message whose three coordinates are numbers, in the order of the message, each with its colour: its own if the message has an rgb field, otherwise the colour map's colour of its intensity, otherwise the colour map's colour of 0. Invalid points make no difference. Every selectable colour map has a colour for every float, also NaN and infinities, when the configured maximum intensity is positive.", "quantifier": "every message (any number of points, any field names), every float coordinate and intensity, every selectable colour map and every positive maximum up to 2^127", "why_tests_cant": "The claim ranges over all float inputs including NaN and infinities and over all placements of invalid points in the cloud.", "anchors": ["voxblox_ros/src/tsdf_server.cc: TsdfServer::processPointCloudMessageAndInsert", "voxblox_ros/src/tsdf_server.cc: TsdfServer::integratePointcloud", "voxblox_ros/include/voxblox_ros/conversions.h: convertPointcloud", "voxblox_ros/include/voxblox_ros/conversions.h: convertColor"]}
{"id": "C92", "title": "A displayed mesh shows every vertex once, in place, in the colour of the mode", "statement": "Filling a marker or a point cloud with a mesh layer emits every vertex of every non-empty mesh exactly once, mesh by mesh and in the order of its vertices, at its exact position. Its colour is that of the mode: the stored colour, the height colour, the normal mapped to red, green and blue, or gray or the stored colour shaded by two fixed lights. In the colour mode the point cloud has exactly the stored bytes; in the other modes channels are within a small tolerance of the exact value and inside 0..1 (up to 1/500) or 0..255. A non-empty mesh without the colours or normals the mode needs aborts.", "quantifier": "every mesh layer, any number and size of meshes, every vertex position, byte colours, normals with components in -1..1, all five colour modes", "why_tests_cant": "The claim ranges over all float normals, heights and colours; rounding could leave the byte range.", "anchors": ["voxblox_ros/include/voxblox_ros/mesh_vis.h: getVertexColor", "voxblox_ros/include/voxblox_ros/mesh_vis.h: fillMarkerWithMesh", "voxblox_ros/include/voxblox_ros/mesh_vis.h: fillPointcloudWithMesh", "voxblox_ros/include/voxblox_ros/conversions.h: colorVoxbloxToMsg", "voxblox_ros/include/voxblox_ros/conversions.h: colorMsgToVoxblox"]}
{"id": "C93", "title": "Subscribers of an ESDF server have its maps after a publication", "statement": "After an ESDF server publishes (publish_esdf_map and publish_tsdf_map set), every subscriber of the ESDF topic has exactly the blocks of the server's ESDF map with the same distances and flags, and every subscriber of the TSDF topic has exactly its TSDF map. After clear() both the server and its subscribers are empty. Publishing never fails.", "quantifier": "every history of integration, incremental and batch ESDF updates, poses, loading, clearing, publishing, received maps, and subscribers joining and leaving, of any length; every integrator configuration", "why_tests_cant": "The claim is about all histories; a test fixes one.", "anchors": ["voxblox_ros/src/esdf_server.cc: EsdfServer::publishMap", "voxblox_ros/src/esdf_server.cc: EsdfServer::clear", "voxblox_ros/src/esdf_server.cc: EsdfServer::newPoseCallback", "voxblox_ros/src/esdf_server.cc: EsdfServer::updateEsdf", "voxblox_ros/src/tsdf_server.cc: TsdfServer::clear"]}
{"id": "C94", "title": "Simulated viewpoints are inside the world and clear of its objects", "statement": "When SimulationServer draws a viewpoint it lies inside the bounds of the world and at least min_distance away from every point of every object, and its direction is a unit vector. When no position among the allowed attempts is far enough from the objects, the call answers false and changes nothing; otherwise the first such position is returned.", "quantifier": "every world and bounds, every sequence of random draws, every number of attempts and least distance", "why_tests_cant": "The positions are random and the world arbitrary; a test sees a handful of draws.", "anchors": ["voxblox_ros/src/simulation_server.cc: SimulationServer::generatePlausibleViewpoint", "voxblox/src/simulation/simulation_world.cc: SimulationWorld::getDistanceToPoint"]}
{"id": "C95", "title": "The intensity mesh shows what was measured at each vertex", "statement": "The intensity mesh published by the intensity server has exactly the vertices of the mesh and one colour per vertex. A vertex that lies in a voxel in which an intensity was measured has the heat colour of that intensity within the configured range; every other vertex keeps the colour it had.", "quantifier": "every intensity layer the server can hold, every range, every mesh message", "why_tests_cant": "It must hold for every vertex position in relation to every layer; the existing tests never look at the colours of an intensity mesh.", "anchors": ["voxblox_ros/include/voxblox_ros/intensity_vis.h: recolorVoxbloxMeshMsgByIntensity", "voxblox_ros/src/intensity_server.cc: IntensityServer::updateMesh", "voxblox/include/voxblox/core/layer.h: getVoxelPtrByCoordinates"]}
{"id": "C96", "title": "An intensity image is integrated pixel by pixel along its viewing rays", "statement": "When an intensity image arrives and its pose is known, every subsample_factor-th pixel (counted along the rows) is integrated once, in order: its value, along the viewing direction of that pixel in a pinhole camera of the configured focal length whose axis passes through the middle of the image, rotated by the pose, from the position of the pose. Without a pose nothing changes.", "quantifier": "every image size up to 2^22 by 2^22, every content, every focal length from 1 to 2^22 pixels, every pose, every positive subsampling factor", "why_tests_cant": "It quantifies over all image sizes and subsampling factors, including those that do not divide the row length.", "anchors": ["voxblox_ros/src/intensity_server.cc: IntensityServer::intensityImageCallback", "voxblox/src/integrator/intensity_integrator.cc: addIntensityBearingVectors"]}
{"id": "C97", "title": "A simulated camera sees one ray per pixel, and noise moves readings only along their rays", "statement": "A simulated view of an image of the given width and height has one viewing ray per pixel, symmetric about the view direction. The noisy view of the same camera has the readings of the clean view in the same order, with the same colours, each moved along its own ray by the noise drawn for it but never behind the camera; with zero noise it is the clean view. From one pose, the clean and the noisy camera look the same way.", "quantifier": "every world, camera position, rotation, image size up to 2^22 by 2^22, focal length from 1/1024 to 2^22, range up to 2^100, and every noise sequence", "why_tests_cant": "It relates two implementations of the same camera over every world and noise sequence; tests use one resolution.", "anchors": ["voxblox/src/simulation/simulation_world.cc: getPointcloudFromViewpoint, getNoisyPointcloudFromViewpoint, getPointcloudFromTransform, getNoisyPointcloudFromTransform, getNoise"]}
{"id": "C98", "title": "Ground and walls of a simulated world bound it where they were put", "statement": "After adding a ground level, the distance of the world at a point is the smaller of its previous distance and the height above the ground. A world bounded by four walls has, at every point, the distance to the nearest wall (at most the maximum asked for), and it is positive exactly strictly between the walls.", "quantifier": "every position of ground and walls, every point within 2^120 of them, every previous world", "why_tests_cant": "It must hold at every point for every placement, with the rounding of the distances; a swapped normal only shows on one side of one wall.", "anchors": ["voxblox/src/simulation/simulation_world.cc: addGroundLevel, addPlaneBoundaries", "voxblox/include/voxblox/simulation/simulation_world_inl.h: getDistanceToPoint"]}
{"id": "C99", "title": "Simulated rays meet objects on their surfaces, and objects in the way are seen", "statement": "When a simulated ray is reported to meet a plane, sphere, box or upright cylinder, the reported distance is in front of the sensor and in range, and the point there is on the surface of the object up to rounding (for a sphere, on the side facing the sensor). A ray that from outside passes through a plane, the inside of a sphere or the inside of a box within range is reported, for a box no later than any point inside it.", "quantifier": "every object, ray origin and range with coordinates up to M (1 <= M <= 2^38), every ray direction; for boxes, rays that do not lie in the plane of a face; margins proportional to M (to M^2 for squared distances)", "why_tests_cant": "The claim relates float code with early exits to real geometry for every position, size and direction; tests shoot a few axis-aligned rays.", "anchors": ["voxblox/include/voxblox/simulation/objects.h: Sphere::getRayIntersection, Cube::getRayIntersection, PlaneObject::getRayIntersection, Cylinder::getRayIntersection"]}
{"id": "C100", "title": "Reported memory counts what layers and meshes hold", "statement": "The memory size a layer reports is the size of its members plus, for every block, the block's members and all its voxels; adding a block raises it by exactly that block's size. The memory size a mesh layer reports counts every vertex, normal, colour and index of every mesh.", "quantifier": "every layer whose blocks have the same number of voxels (every layer the API builds), every mesh layer; totals below 2^64", "why_tests_cant": "The layer's report multiplies the size of one arbitrary block; that it equals the sum needs an invariant of all blocks, for every set of blocks.", "anchors": ["voxblox/include/voxblox/core/layer_inl.h: getMemorySize", "voxblox/include/voxblox/core/block_inl.h: getMemorySize", "voxblox/include/voxblox/mesh/mesh.h: getMemorySize", "voxblox/include/voxblox/mesh/mesh_layer.h: getMemorySize"]}
{"id": "C101", "title": "Recolouring and polygon export keep a mesh's triangles", "statement": "Recolouring a mesh gives every vertex the requested colour and leaves vertices, normals, indices and triangles as they were. The polygon mesh exported from a mesh layer without merging has the vertices of all meshes and exactly one three-cornered polygon for every triangle, with the same corners in the same order, and no corner index out of range.", "quantifier": "every mesh and colour; every mesh layer of consistent meshes with up to 2^32 vertices", "why_tests_cant": "The export groups a flat index list into polygons while it walks it; that no triangle is lost, shifted or split is a statement over lists of every length.", "anchors": ["voxblox/include/voxblox/mesh/mesh.h: colorizeMesh", "voxblox_ros/include/voxblox_ros/mesh_pcl.h: toPCLPolygonMesh"]}
{"id": "C102", "title": "Evaluating a layer at candidate poses treats every pose on its own", "statement": "Evaluating layer B against layer A at a list of poses appends exactly one result per pose, in order, after the results already there; each is the comparison of A with B moved by that pose alone. If the caller asks for the layers, entry i holds B moved by pose i and the error layer of that comparison, whatever the vector held before, and asking for them does not change the numbers. Every list of poses within range is evaluated to the end.", "quantifier": "every pair of TSDF layers of the same geometry, every list of poses, every previous content of the two result vectors, every order of summation and of hash set iteration", "why_tests_cant": "The results must be independent across lists of every length and any prior contents of the vectors; a test uses one or two poses and fresh vectors.", "anchors": ["voxblox/include/voxblox/integrator/merge_integration.h: evaluateLayerRmseAtPoses"]}
{"id": "C103", "title": "Layers that do not match are refused", "statement": "An ESDF integrator can only be built for a TSDF and an ESDF layer with the same number of voxels per side and voxel sizes within 1e-6 m of each other, and it then works on the layer it was given; layers are only evaluated at poses if they have the same number of voxels per side and voxel sizes within 1e-8 m. Otherwise the program stops before it writes anything.", "quantifier": "all layers with voxel sizes up to 1000 m; tolerances up to 1e-12 m of rounding", "why_tests_cant": "The tolerance test compares doubles made from floats with rounded sums; tests use equal sizes.", "anchors": ["voxblox/src/integrator/esdf_integrator.cc: EsdfIntegrator::EsdfIntegrator", "voxblox/include/voxblox/integrator/merge_integration.h: evaluateLayerRmseAtPoses"]}
{"id": "C104", "title": "A layer used by coordinates is a map from voxels to values", "statement": "Whatever sequence of calls a program makes on a layer through world coordinates (allocating the block at a point, allocating it anew, removing it, writing or reading the voxel at a point) or through global voxel indices, every read returns what a map from voxels to values would return: the value last written to the voxel that contains the point, the default value if the block was allocated and the voxel not written since, and nothing if the block is not there. No call touches a voxel of another block, and a write changes one voxel only.", "quantifier": "every layer the API builds, every voxel type, every finite program of these calls, at points inside a voxel and further from its border than rounding reaches, within 65536 voxels of the origin; reads by global index for a power-of-two number of voxels per side", "why_tests_cant": "Each call computes a block index and a voxel index by separate floating-point roundings; that they address one and the same voxel in every call of every program needs the rounding analysis and an induction over programs.", "anchors": ["voxblox/include/voxblox/core/layer.h: allocateBlockPtrByCoordinates, allocateNewBlockByCoordinates, removeBlockByCoordinates, getBlockPtrByCoordinates, getVoxelPtrByCoordinates, getVoxelPtrByGlobalIndex", "voxblox/include/voxblox/core/block.h: getVoxelPtrByCoordinates, computeTruncatedVoxelIndexFromCoordinates"]}
{"id": "C105", "title": "The hierarchical index of a ray lists every voxel of the ray once, under its block", "statement": "Asking for the voxels along a ray sorted by block succeeds and sorts exactly the voxels a ray caster for the same measurement visits, from the near end of the ray to its far end: every block the ray visits, and no other, is listed once, with the local indices of the visited voxels in the order of the ray; none is lost, repeated or put under another block, also for negative coordinates.", "quantifier": "every sensor position, point, truncation distance (coordinates up to 2^15 m, ray within 2^20 voxels), voxel size, carving setting, and every power-of-two number of voxels per side", "why_tests_cant": "The split of each voxel uses a float product for the block and a bit mask for the place; that they agree on every voxel of every ray, and that grouping loses nothing, needs a proof over all rays.", "anchors": ["voxblox/include/voxblox/integrator/integrator_utils.h: getHierarchicalIndexAlongRay, castRay"]}
{"id": "C106", "title": "Meshing with colours succeeds, and every vertex has the colour of the observed voxel it lies in", "statement": "Generating the meshes of a layer succeeds, with or without colours and for every combination of the flags; the mesh of every requested block is the surface of that block as the layer now is, and when colours are on, every vertex has a colour, which is the colour of an observed voxel of the layer whose cell the vertex lies in; no vertex is left black because its voxel was looked up in the wrong place.", "quantifier": "every layer the API builds with up to 1024 voxels per side, blocks within 32768 voxels of the origin and finite distances up to 2^100 in observed voxels; every configuration and combination of flags", "why_tests_cant": "A vertex lies between two voxels, possibly of two blocks, and its voxel is looked up by float arithmetic from its coordinates; that the lookup finds one of the two for every pair of distances needs an error bound.", "anchors": ["voxblox/include/voxblox/mesh/mesh_integrator.h: generateMesh, updateMeshForBlock, updateMeshColor"]}
{"id": "C107", "title": "The PLY file exported for a layer shows its surface, or its distances, completely", "statement": "Exporting a layer as PLY gives, for the surface, a valid file with exactly the triangles of the surface of every block, each once, every vertex with the colour of the observed voxel it lies in and with a finite normal, also for degenerate triangles; connected, the same triangles over merged vertices, without those that have lost a corner, with unit normals; for distances, one point for every observed voxel in the range, at its centre and coloured by its distance. A layer with nothing to show gives no file; an empty file name or an unknown kind of output stops the program.", "quantifier": "every layer the API builds with voxels of up to 16 m, up to 1024 per side, less than 32768 voxels from the origin, with finite distances; every file name, output kind and range of distances; at most 2^31 points in the file (indices are 32-bit)", "why_tests_cant": "The export composes meshing, colouring, merging and printing; that no layer makes one of the checks in between fail, overflows a merge cell or leaves a vertex without a colour needs bounds for every vertex of every layer.", "anchors": ["voxblox/include/voxblox/io/sdf_ply.h: outputLayerAsPly, convertLayerToMesh, convertVoxelGridToPointCloud", "voxblox/src/io/mesh_ply.cc: outputMeshAsPly", "voxblox/include/voxblox/mesh/mesh_layer.h: getMesh, getConnectedMesh"]}
{"id": "C108", "title": "The evaluation against a ground-truth cloud counts every point once and reports the error of the map at the points", "statement": "Evaluating a map against a cloud: every point is judged by the voxel it lies in - unknown when that voxel is missing or its weight is at most 0.01, outside when it is at least two voxels in front of the surface, otherwise with the interpolated distance at the point, or the distance of the voxel when a neighbour is missing. The three counts and fractions are those of the points, and the RMS error is the root of the mean square of the errors of the known points, with two voxel sizes for those outside; it is not a number when no point is known. Recolouring by error changes neither the report nor any distance or weight, and shades every voxel with known points by the error of the last of them, from black to white at the truncation distance.", "quantifier": "every layer the API builds with finite values, every cloud of up to 2^29 points within 65536 voxels of the origin, every setting of the two switches and every order of the sums in the interpolation", "why_tests_cant": "The loop reads a layer that recolouring modifies; that the report does not depend on it, and that no cloud breaks the counts or the error bound, is a statement about all clouds.", "anchors": ["voxblox_ros/src/voxblox_eval.cc: evaluate", "voxblox/include/voxblox/interpolator/interpolator_inl.h: getNearestDistanceAndWeight, getInterpDistance", "voxblox/include/voxblox/core/color.h: grayColorMap"]}
{"id": "C109", "title": "A mesh layer is a map from blocks to meshes, used by index or by coordinates", "statement": "Whatever sequence of calls a program makes on a mesh layer - allocating, inserting, fetching, changing, removing and clearing meshes, listing and counting them - what it sees is what a map from block indices to meshes shows: allocating keeps a mesh that is there and otherwise makes an empty one at the corner of the block; a call with a point acts on the block the point lies in; removing one block, or changing its mesh, leaves every other; the lists name every block that has a mesh, or an updated mesh, once; clearing distant meshes empties exactly those further away than the distance and marks them updated. The program is stopped only where it asks for a reference to the mesh of a block that has none.", "quantifier": "every finite sequence of calls from every layer, every block size from 2^-60 to 2^60, every change of a mesh, and all points further from the faces of the blocks than rounding", "why_tests_cant": "A test runs one sequence; that no history of insertions and removals loses, doubles or mixes meshes is a statement about all histories.", "anchors": ["voxblox/include/voxblox/mesh/mesh_layer.h: getMeshByIndex, getMeshPtrByIndex, allocateMeshPtrByIndex, allocateMeshPtrByCoordinates, allocateNewBlock, removeMesh, removeMeshByCoordinates, clearDistantMesh, getAllAllocatedMeshes, getAllUpdatedMeshes, getNumberOfAllocatedMeshes, clear"]}
{"id": "C110", "title": "The approximate hash array returns the last value written to the bin of an index", "statement": "Reading an approximate hash array with 2^N elements, by index or by hash, gives the value most recently written to a key with the same remainder of the hash modulo 2^N, where an index hashes to x + 17191 y + 17191^2 z, and otherwise the initial element of that bin. No key, however large, makes an access leave the array. Indices of one line along x that are less than 2^N apart never share an element; with the 4096 elements the integrators use for locks a voxel always shares its element with the one 15 further in x and one further in z.", "quantifier": "every N up to 30, every element type, every history of writes by index and by hash, and every key", "why_tests_cant": "A test writes a sample of keys; that the wrap-around arithmetic keeps every 64-bit hash within the array, and that no other key interferes, concerns all keys.", "anchors": ["voxblox/include/voxblox/utils/approx_hash_array.h: ApproxHashArray::get", "voxblox/include/voxblox/core/block_hash.h: AnyIndexHash, LongIndexHash"]}
{"id": "C111", "title": "The exponential id colour map spreads ids evenly over the colour circle", "statement": "With n items per revolution, id v has the hue of its place in its revolution, turned by 0 for the first revolution and by odd multiples of 1/2^(k+1) items for the 2^k revolutions from number 2^k on. The hues of the first n 2^k ids are distinct multiples of 1/(n 2^k) of the circle, so ids are spread evenly and adding ids changes no earlier hue. The colour returned is opaque, fully saturated and shows this hue, up to rounding that grows with v/n. Unique ids have unique colours.", "quantifier": "every n from 1 to 2^20 and every id below 2^23; the spread for every n, k and id", "why_tests_cant": "The map uses float division, logarithms and powers on ids; that no id ever meets the hue of another concerns all pairs of ids.", "anchors": ["voxblox/include/voxblox/utils/color_maps.h: ExponentialOffsetIdColorMap::colorLookup, setItemsPerRevolution", "voxblox/include/voxblox/core/color.h: rainbowColorMap"]}
{"id": "C112", "title": "Settings read from parameters are the documented ones and fit together", "statement": "Every setting of the TSDF map, the integrators, the mesher and the alignment is the parameter of its documented name rounded to a float, or its documented default; no parameter influences another setting, except that the truncation distance defaults to four voxels, the fixed band of the ESDF to half the truncation distance, and the default distance is raised to the maximum distance. The number of voxels per side is always a power of two: the given one or 16. The TSDF and ESDF maps made from one set of parameters are never refused by the ESDF integrator, and the default ESDF settings are usable. For every match ratio from 0 to 1 and batch size up to 2^20 an alignment step asks for a fixed number of matches, at least three, and by default for 16 of 20.", "quantifier": "every assignment of values to parameters, given or missing in any combination; voxel sizes from 2^-60 to a metre for the default ESDF settings, and from 2^-40 to a kilometre with up to 65536 voxels per side for the maps", "why_tests_cant": "There are more than thirty optional parameters that interact; a test launches a few combinations.", "anchors": ["voxblox_ros/include/voxblox_ros/ros_params.h: getTsdfMapConfigFromRosParam, getTsdfIntegratorConfigFromRosParam, getEsdfMapConfigFromRosParam, getEsdfIntegratorConfigFromRosParam, getMeshIntegratorConfigFromRosParam, getICPConfigFromRosParam", "voxblox/include/voxblox/core/common.h: isPowerOfTwo"]}
{"id": "C113", "title": "An alignment step finds the rigid motion of least squared error", "statement": "For every nonempty list of matched points the motion computed by one alignment step is a rotation (never a mirror image) with a translation that takes the mean of the points to the mean of their matches, and no other rotation with any translation leaves a smaller sum of squared distances. Without refinement of roll and pitch it is a rotation about the vertical axis, and the best of those. Points that were moved rigidly are moved back exactly.", "quantifier": "all nonempty lists of matched points, all rotations and translations to compare with, all decompositions that satisfy the contract of a singular value decomposition, reading the arithmetic as exact", "why_tests_cant": "Optimality is a statement about the continuum of rotations; the mirrored case, where the last column is negated, needs particular point sets and a particular decomposition.", "anchors": ["voxblox/include/voxblox/alignment/icp.h: getRotationFromMatchedPoints", "voxblox/src/alignment/icp.cc: getTransformFromMatchedPoints"]}
{"id": "C114", "title": "Pose updates are weighted between none and all by information that only grows", "statement": "The information vector of a mini-batch is finite and positive in all six directions; every matched point adds twice its squared normal to the translational entries and twice its squared lever arms to the rotational ones, up to rounding, and never takes anything away. Each pose update is weighted in each direction by a number between 0 and 1: by 1 if nothing was known, by at most a half if the step brings no more information than there was, by at least a half if it brings no less. Over a whole run the accumulated information never shrinks and ends no smaller than any single step.", "quantifier": "all matched points up to 2^20 m with gradients of components up to 2, all mini-batches of up to 2^20 points, all initial weightings from 0 to 2^66, all sequences of up to 2^20 updates, in float arithmetic", "why_tests_cant": "A weight outside the range or not a number needs particular magnitudes and histories of updates; a test sees a few.", "anchors": ["voxblox/src/alignment/icp.cc: addNormalizedPointInfo, matchPoints, runThread, runICP"]}
