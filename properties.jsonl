{"id": "C01", "title": "Matching is one-to-one and above threshold", "statement": "For any submission, any ground truth and any similarity function, the correspondences used for scoring at each similarity threshold pair an existing detection with an existing ground-truth element, never use a detection twice, never use a ground-truth element twice, and only pair elements whose similarity is at least the threshold.", "quantifier": "all finite submissions, ground truths, similarity values and threshold lists", "why_tests_cant": "A test compares a handful of scenes; the claim is about every combination of scores, similarities and ties.", "anchors": ["sumo-api/sumo/metrics/evaluator.py:Evaluator._compute_agnostic_data_assoc", "sumo-api/sumo/metrics/evaluator.py:Evaluator._make_similarity_cache"]}
{"id": "C02", "title": "Matching is the unique stable assignment", "statement": "At each threshold the correspondences are exactly the one assignment with no blocking pair: there is no detection and ground-truth element with similarity at least the threshold such that the detection is unmatched or strictly prefers that element (higher similarity, ties to the later ground-truth element) and the element is unmatched or held by a detection of lower priority (lower score, ties to the later detection). Any one-to-one assignment without a blocking pair equals the one computed.", "quantifier": "all finite submissions, ground truths, similarity values and thresholds", "why_tests_cant": "Optimality and uniqueness quantify over all alternative assignments, which is exponential in scene size.", "anchors": ["sumo-api/sumo/metrics/evaluator.py:Evaluator._compute_agnostic_data_assoc", "sumo-api/sumo/metrics/evaluator.py:sort_corrs_by_similarity"]}
{"id": "C03", "title": "The result at one threshold does not depend on the other thresholds", "statement": "Evaluating with a list of thresholds gives, for each threshold in it, the same correspondences as evaluating with that threshold alone, whatever order the thresholds were supplied in; the working copy pruned along the way never leaks into the similarity table used afterwards.", "quantifier": "all threshold lists (any order, duplicates) and all scenes", "why_tests_cant": "The loop prunes one shared table in place; a stale pruning would only show for particular orders of thresholds and similarities.", "anchors": ["sumo-api/sumo/metrics/evaluator.py:Evaluator.__init__", "sumo-api/sumo/metrics/evaluator.py:Evaluator._compute_agnostic_data_assoc"]}
{"id": "C04", "title": "Raising the threshold never matches more ground truth", "statement": "Every ground-truth element matched at a higher similarity threshold is also matched at every lower one, so the number of matches never grows with the threshold.", "quantifier": "all scenes and all pairs of thresholds t1 <= t2", "why_tests_cant": "Greedy algorithms usually lack this kind of monotonicity; only an argument over all inputs can establish it.", "anchors": ["sumo-api/sumo/metrics/evaluator.py:Evaluator._compute_agnostic_data_assoc"]}
{"id": "C05", "title": "Category association is agnostic association inside each category", "statement": "When scene dictionaries are keyed by element id, the category-aware association pairs only elements of the same category, equals the category-agnostic association of the two scenes restricted to that category, is defined for every category that occurs in either scene, and building it never raises KeyError; if a detection of a listed category has an id that is not among the keys of that category's detections and at least one threshold is given, building the evaluator raises KeyError.", "quantifier": "all scenes, category lists, thresholds", "why_tests_cant": "Requires reasoning over every way elements can be spread over categories and every key/id relation.", "anchors": ["sumo-api/sumo/metrics/evaluator.py:Evaluator._compute_category_data_assoc", "sumo-api/sumo/metrics/evaluator.py:Evaluator.semantics_score"]}
{"id": "C06", "title": "Precision, recall and AP stay within [0,1]", "statement": "If the number of correct detections does not exceed the number of ground-truth elements (which must be positive), every precision and recall value returned and the average precision lie in [0,1], recall never decreases along the curve and the average precision is at most the final recall.", "quantifier": "all match vectors, score vectors, orders chosen by the sort, and ground-truth counts", "why_tests_cant": "Numeric bounds over all vectors of all lengths.", "anchors": ["sumo-api/sumo/metrics/utils.py:compute_auc_ap", "sumo-api/sumo/metrics/utils.py:compute_pr", "sumo-api/sumo/metrics/utils.py:compute_ap"]}
{"id": "C07", "title": "The interpolated curve is the upper envelope", "statement": "With interpolation, the precision reported at position i is the maximum raw precision over positions i, i+1, ...; hence it never increases, and interpolating an interpolated curve changes nothing.", "quantifier": "all precision vectors", "why_tests_cant": "The in-place backward loop must be right for every length and shape of curve.", "anchors": ["sumo-api/sumo/metrics/utils.py:compute_pr", "sumo-api/sumo/metrics/utils.py:compute_auc_ap"]}
{"id": "C08", "title": "AP is the exact area under the interpolated curve", "statement": "The average precision equals the sum over correct detections of 1/n_gt times the interpolated precision at that detection, i.e. the area under the step curve that assigns to each recall level the best precision achieved at that recall or beyond.", "quantifier": "all match vectors, scores and positive n_gt", "why_tests_cant": "An accumulated sum inside a mutating loop; off-by-one errors show only for particular patterns.", "anchors": ["sumo-api/sumo/metrics/utils.py:compute_auc_ap"]}
{"id": "C09", "title": "AP of a perfect and of a hopeless submission", "statement": "If every detection is correct and there are as many as ground-truth elements n, the AP is n/(n+eps) with eps=2^-52 (below 1 but within eps of it); AP is 0 exactly when no detection is correct.", "quantifier": "all n and all orders", "why_tests_cant": "Holds for every n.", "anchors": ["sumo-api/sumo/metrics/utils.py:compute_auc_ap"]}
{"id": "C10", "title": "AP depends on detection order only through ties", "statement": "If all detection scores are distinct, permuting the list of detections does not change the precision/recall curve or AP; with equal scores it can, because the sort used is free to order ties either way.", "quantifier": "all permutations of all detection lists", "why_tests_cant": "Factorially many permutations.", "anchors": ["sumo-api/sumo/metrics/utils.py:compute_auc_ap", "sumo-api/sumo/metrics/utils.py:compute_pr"]}
{"id": "C11", "title": "AP is monotone in the quality of the ranking", "statement": "Appending a false positive ranked below everything leaves AP unchanged; turning a false positive into a correct detection at the same rank, swapping a correct detection ahead of an adjacent false positive, or deleting a false positive never lowers AP.", "quantifier": "all ranked lists and all positions", "why_tests_cant": "A relation between pairs of runs, over all lists.", "anchors": ["sumo-api/sumo/metrics/utils.py:compute_auc_ap"]}
{"id": "C12", "title": "Sampled precision means best precision at or beyond that recall", "statement": "With recall samples and interpolation, the precision reported for sample r is the largest raw precision among operating points whose recall is at least r, and 0 if no operating point reaches recall r; without interpolation it is the raw precision at the first such operating point.", "quantifier": "all curves and all sample vectors", "why_tests_cant": "The binary search and index guard must be right for every sample including duplicates and values above the last recall.", "anchors": ["sumo-api/sumo/metrics/utils.py:compute_pr"]}
{"id": "C13", "title": "Shape and semantics scores are bounded and well defined", "statement": "With at least one threshold and one evaluated ground-truth element, shape_score lies in [0,1]; with at least one evaluated element of a listed category, so does semantics_score. With none, the mean of an empty list is taken and the score is NaN. Detections matched to non-evaluated elements are ignored: they count neither as correct nor as false.", "quantifier": "all scenes keyed by element id, all similarity functions, threshold lists and category lists", "why_tests_cant": "Composes matching, counting and AP over every scene.", "anchors": ["sumo-api/sumo/metrics/evaluator.py:Evaluator.shape_score", "sumo-api/sumo/metrics/evaluator.py:Evaluator.semantics_score"]}
{"id": "C14", "title": "Point-set IoU is a proper similarity", "statement": "points_iou lies in [0,1], is symmetric in its two point sets, is 1 for two identical non-empty sets with any non-negative threshold, is 0 when either set is empty, and never decreases when the threshold grows.", "quantifier": "all finite point sets and thresholds", "why_tests_cant": "Real-valued inputs of unbounded size.", "anchors": ["sumo-api/sumo/metrics/utils.py:points_iou", "sumo-api/sumo/metrics/utils.py:nearest_neighbors"]}
{"id": "C15", "title": "The bounding-box shortcut never changes the IoU", "statement": "If each box contains its point set and the threshold is non-negative, whenever the quick rejection test returns 0 the full computation would also give 0.", "quantifier": "all point sets, enclosing boxes, thresholds", "why_tests_cant": "A shortcut that disagrees only on near-touching boxes is missed by sampled tests.", "anchors": ["sumo-api/sumo/metrics/utils.py:points_iou"]}
{"id": "C16", "title": "Surface distance error behaves like an error", "statement": "The RMS symmetric surface distance of a correspondence is non-negative, symmetric in the two point sets, and 0 exactly when the two non-empty sets have the same points; the reported error is infinity exactly when there are no correspondences at any threshold, and the per-pair cache never changes the result.", "quantifier": "all scenes, point sets and threshold lists", "why_tests_cant": "Cache transparency and zero-iff-equal quantify over all inputs.", "anchors": ["sumo-api/sumo/metrics/utils.py:points_rmsssd", "sumo-api/sumo/metrics/utils.py:nearest_neighbors"]}
{"id": "C17", "title": "Color error is undefined when one side has no points", "statement": "When both posed point sets of a correspondence are non-empty or both are empty the color error is a non-negative number; when exactly one is empty, the computation raises a broadcasting error unless the non-empty one has exactly one point.", "quantifier": "all pairs of colored point sets", "why_tests_cant": "Only shows for an empty side, which the shape test data never produce for color.", "anchors": ["sumo-api/sumo/metrics/utils.py:color_rmsssd"]}
{"id": "C18", "title": "Boxes are normalized and merging is the least upper bound", "statement": "Every Box3d has min_corner <= max_corner on each axis whatever corners were given and in whatever order; merging a non-empty list gives the smallest box containing them all, independent of order and grouping; merging an empty list gives the degenerate box at the origin.", "quantifier": "all corners and all lists of boxes", "why_tests_cant": "Lattice laws over lists of any length.", "anchors": ["sumo-api/sumo/threedee/box_3d.pyx:Box3d.__init__", "sumo-api/sumo/threedee/box_3d.pyx:Box3d.merge"]}
{"id": "C19", "title": "Computed bounding boxes are tight", "statement": "The bounding box of a non-empty point cloud contains every point and each face touches a point; of a list of non-empty meshes it is the tight box of all their vertices together. A list that includes an empty mesh gets the origin merged in, so the result need not be tight.", "quantifier": "all point clouds and mesh lists", "why_tests_cant": "Quantifies over all point clouds; the failing case needs an empty mesh beside others away from the origin.", "anchors": ["sumo-api/sumo/threedee/compute_bbox.pyx:ComputeBbox.from_point_cloud", "sumo-api/sumo/threedee/compute_bbox.pyx:ComputeBbox.from_meshes"]}
{"id": "C20", "title": "A box's mesh is a closed surface enclosing its volume", "statement": "The mesh of a box has 12 triangles forming a closed surface in which every edge is used once in each direction, every triangle's winding agrees with the stored normals (outward or inward as requested), and the signed volume it encloses is plus or minus the box volume.", "quantifier": "all boxes, both orientations", "why_tests_cant": "Volume identity for all real extents.", "anchors": ["sumo-api/sumo/threedee/box_3d.pyx:Box3d._to_mesh_helper", "sumo-api/sumo/threedee/box_3d.pyx:Box3d.corners"]}
{"id": "C21", "title": "The IoU mesh built for bounding boxes is not the box", "statement": "The mesh that the bounding-box evaluator hands to the boolean engine, built from the posed corners, should enclose the posed box volume; with the face table in the code it does not: for every box of positive volume and every pose the signed volume differs from the box volume by a fixed factor.", "quantifier": "all boxes and poses", "why_tests_cant": "Self-intersection and wrong volume are hidden by ratio tests on identical boxes.", "anchors": ["sumo-api/sumo/metrics/bb_evaluator.py:BBEvaluator._bbox2pymesh"]}
{"id": "C22", "title": "Voxel linearization is a bijection inside the grid", "statement": "Converting voxel coordinates to linear indices and back is the identity for coordinates inside the grid sizes, distinct in-grid voxels get distinct indices, and converting a non-negative index to coordinates and back is the identity.", "quantifier": "all sizes, voxels and indices", "why_tests_cant": "Unbounded grids.", "anchors": ["sumo-api/sumo/threedee/voxel_grid.py:_linearize_voxels", "sumo-api/sumo/threedee/voxel_grid.py:_vectorize_voxels"]}
{"id": "C23", "title": "A voxel grid built from points covers exactly those points", "statement": "A grid created from one non-empty batch of points at or above its minimum corner has one voxel, listed once, for each cell that contains a point and no others; every point lies within half a voxel of a reported center on each axis and inside the reported bounds; one point below the minimum corner raises ValueError.", "quantifier": "all voxel sizes > 0, corners and point batches", "why_tests_cant": "Floors and deduplication over all real inputs.", "anchors": ["sumo-api/sumo/threedee/voxel_grid.py:VoxelGrid.add_points", "sumo-api/sumo/threedee/voxel_grid.py:VoxelGrid.voxel_centers", "sumo-api/sumo/threedee/voxel_grid.py:VoxelGrid.bounds"]}
{"id": "C24", "title": "Adding points later may corrupt earlier voxels", "statement": "Adding batches should accumulate the union of occupied cells. It does for every sequence of batches in which each batch either enlarges neither x nor y extent or is at least as large as the grid in both; it does not in general: a batch that is larger in one of x, y and smaller in the other moves voxels stored earlier. A rejected batch leaves the grid unchanged.", "quantifier": "all sequences of batches", "why_tests_cant": "Depends on history; needs a second batch of a particular shape.", "anchors": ["sumo-api/sumo/threedee/voxel_grid.py:VoxelGrid.add_points"]}
{"id": "C25", "title": "Accepted symmetry combinations are exactly the documented ones", "statement": "A triple of per-axis symmetries is accepted exactly when it falls under one of the nine documented rules, acceptance does not depend on the order of the axes, and writing an accepted symmetry to XML or text and reading it back gives the same symmetry.", "quantifier": "all triples of symmetry types", "why_tests_cant": "125 triples, and round trip for every accepted one, against a rule-based spec.", "anchors": ["sumo-api/sumo/semantic/object_symmetry.py:ObjectSymmetry", "sumo-api/sumo/semantic/object_symmetry.py:_valid_symmetries"]}
{"id": "C26", "title": "Reading an invalid symmetry yields None, and != never returns", "statement": "Reading symmetry XML whose values are missing, unknown or an unlisted combination does not raise as documented: it returns None, and the object built from it silently gets the no-symmetry default; comparing two symmetries with != recurses until Python gives up for every pair.", "quantifier": "all XML inputs; all pairs of symmetries", "why_tests_cant": "Non-termination and silent defaulting over all inputs.", "anchors": ["sumo-api/sumo/semantic/object_symmetry.py:ObjectSymmetry.from_xml", "sumo-api/sumo/semantic/object_symmetry.py:ObjectSymmetry.__ne__", "sumo-api/sumo/semantic/project_object.py:ProjectObject.__init__"]}
{"id": "C27", "title": "Rotation error ignores the object's discrete symmetries", "statement": "For a ground-truth element whose symmetry has only two-fold and four-fold axes (any accepted combination), rotating the element by any element of the rotation group generated by those symmetries does not change the rotation error of any detection; the error is 0 when the detection equals the ground truth rotated by such an element.", "quantifier": "all rotations of detection and ground truth, all accepted discrete symmetry triples, all group elements", "why_tests_cant": "Continuous rotations times group elements.", "anchors": ["sumo-api/sumo/metrics/evaluator.py:Evaluator.rotation_error_1", "sumo-api/sumo/metrics/evaluator.py:Evaluator.symmetric_rot"]}
{"id": "C28", "title": "Cylindrical symmetry is handled exactly only for the x axis", "statement": "For cylindrical symmetry about one axis, the rotation error should not depend on a spin of the ground truth about that body axis. This holds for the x axis away from gimbal lock; for the y and z axes it fails.", "quantifier": "all rotations", "why_tests_cant": "Failure needs particular rotations about two axes.", "anchors": ["sumo-api/sumo/metrics/evaluator.py:Evaluator.cylindrical_symmetric_rot"]}
{"id": "C29", "title": "Poses form a group acting on points", "statement": "Composition of poses is associative with the identity pose as unit and inverse() as inverse; transforming by a composition is transforming twice; transform_to undoes transform_from; the array versions agree with the single-point versions column by column.", "quantifier": "all rotations and translations", "why_tests_cant": "Algebraic laws over the reals.", "anchors": ["sumo-api/sumo/geometry/pose3.pyx:Pose3", "sumo-api/sumo/geometry/rot3.pyx:Rot3"]}
{"id": "C30", "title": "Axis rotations are rotations", "statement": "Rx, Ry and Rz of any angle are orthogonal with determinant 1, angles add under composition, and rotations are closed under product and inverse (transpose); rotating preserves lengths and dot products.", "quantifier": "all angles and vectors", "why_tests_cant": "Trigonometric identities over all angles.", "anchors": ["sumo-api/sumo/geometry/rot3.pyx:Rot3"]}
{"id": "C31", "title": "Quaternion and matrix conversions agree", "statement": "For every unit quaternion the matrix produced is a rotation; converting a rotation matrix to a quaternion and back gives the same matrix, whichever of the four branches the conversion takes; q and -q give the same matrix.", "quantifier": "all unit quaternions and rotation matrices", "why_tests_cant": "Branch selection depends on trace and diagonal; all rotations must be covered.", "anchors": ["sumo-api/sumo/metrics/utils.py:matrix_to_quat", "sumo-api/sumo/metrics/utils.py:quat_to_matrix"]}
{"id": "C32", "title": "Euler conversion round-trips except at gimbal lock", "statement": "euler_to_matrix equals Rz(z) Ry(y) Rx(x); converting a rotation to Euler angles and back gives the same rotation whenever the pitch is not +-90 degrees; at +-90 degrees it can give a different rotation.", "quantifier": "all rotations", "why_tests_cant": "The singular set has measure zero, so sampled tests never meet it.", "anchors": ["sumo-api/sumo/metrics/utils.py:euler_to_quat", "sumo-api/sumo/metrics/utils.py:quat_to_euler", "sumo-api/sumo/metrics/utils.py:euler_to_matrix", "sumo-api/sumo/metrics/utils.py:matrix_to_euler"]}
{"id": "C33", "title": "Inverse depth conversion round-trips", "statement": "Every 8-bit and 16-bit inverse depth code survives decoding to a depth and encoding again; encoding and decoding a depth moves its inverse by at most a fraction of a quantisation step; encoding is order-reversing and clips out-of-range depths; the map versions apply the scalar versions elementwise; 8-bit to 16-bit expansion is 257 times the code, so it keeps order and endpoints. The 16-bit encoding raises no exception for any depth and near plane. Two docstring promises do not hold: a non-positive depth raises no exception, and a depth beyond near*max need not encode to 0.", "quantifier": "all depths and maps", "why_tests_cant": "All real depths; all map sizes.", "anchors": ["sumo-api/sumo/geometry/inverse_depth.pyx"]}
{"id": "C34", "title": "Category id lookups reject unknown ids", "statement": "Looking up the color or name of a category id should raise KeyError for every id outside the table; it does for ids above the table length but the id equal to the length raises IndexError instead.", "quantifier": "all ids and tables", "why_tests_cant": "Boundary value of an arbitrary table.", "anchors": ["sumo-api/sumo/base/colored_category.pyx:ColoredCategory"]}
{"id": "C35", "title": "Merging meshes keeps every triangle's geometry", "statement": "Merging a mesh into another with k common vertices keeps all triangles of the first unchanged, and each triangle of the second refers to the same three positions as before provided the first k vertices of both coincide; vertex and normal counts stay equal and all indices stay in range.", "quantifier": "all pairs of well-formed meshes and k at most both vertex counts", "why_tests_cant": "All mesh sizes and index patterns.", "anchors": ["sumo-api/sumo/threedee/Mesh.cpp:Mesh::merge", "sumo-api/sumo/threedee/TexturedMesh.cpp:TexturedMesh::merge"]}
{"id": "C36", "title": "Renumbering keeps geometry only for a pure front block", "statement": "Renumbering vertices keeps every triangle's geometry when the renumbering covers all vertices injectively into the new block, or when nothing is renumbered; when some but not all vertices are renumbered, triangles touching the remaining vertices end up referring to wrong or missing vertices.", "quantifier": "all meshes and renumberings", "why_tests_cant": "Needs a mesh with more vertices than the renumbering list.", "anchors": ["sumo-api/sumo/threedee/TexturedMesh.cpp:TexturedMesh::renumber"]}
{"id": "C37", "title": "Merging four quadrant meshes gives the documented nine-vertex layout", "statement": "For any four 4-vertex quadrant meshes that agree on their shared vertices, merge_quadrant_meshes returns a mesh whose nine vertices are in the documented order and whose triangles are exactly those of the four quadrants with the same geometry.", "quantifier": "all quadrant geometries and index lists", "why_tests_cant": "All coordinates and triangulations.", "anchors": ["sumo-api/sumo/threedee/textured_mesh.pyx:TexturedMesh.merge_quadrant_meshes"]}
{"id": "C38", "title": "Mesh cleanup removes exactly the offending triangles", "statement": "Removing long edges keeps, in order, exactly the triangles all of whose edges are at most the threshold; removing edges to the origin keeps exactly those with no vertex near the origin; vertices and normals are untouched and repeating the cleanup changes nothing.", "quantifier": "all meshes and thresholds", "why_tests_cant": "Filtering over all index lists.", "anchors": ["sumo-api/sumo/threedee/Mesh.cpp:Mesh::cleanupLongEdges", "sumo-api/sumo/threedee/Mesh.cpp:Mesh::cleanupEdgesToOrigin"]}
{"id": "C39", "title": "Estimated normals are unit or zero and perpendicular for planar fans", "statement": "Every estimated face normal has length 1 and is orthogonal to its triangle's edges unless the triangle is degenerate; every estimated vertex normal has length 1 unless the incident face normals cancel or there are none, in which case it is zero.", "quantifier": "all meshes", "why_tests_cant": "Real-valued geometry of all meshes.", "anchors": ["sumo-api/sumo/threedee/Mesh.cpp:Mesh::CalculateFaceNormals", "sumo-api/sumo/threedee/Mesh.cpp:Mesh::EstimateNormals"]}
{"id": "C40", "title": "Adding a mesh to a model and extracting it gives it back", "statement": "For every sequence of meshes and textured meshes added to an empty model, extracting primitive i returns the indices, vertices, normals (and texture coordinates and images) of the i-th mesh added; adding more meshes never changes what earlier ones extract to.", "quantifier": "all sequences of well-formed meshes", "why_tests_cant": "All histories of additions; offsets into one shared byte buffer.", "anchors": ["sumo-api/sumo/threedee/GltfModel.cpp:GltfModel::addPrimitiveMesh", "sumo-api/sumo/threedee/GltfModel.cpp:GltfModel::addTexturedPrimitiveMesh", "sumo-api/sumo/threedee/GltfModel.cpp:GltfModel::extractPrimitiveMesh"]}
{"id": "C41", "title": "Setting a material color needs all three channels", "statement": "updateMaterial should apply any color other than black; it applies a color only if every channel is non-zero, so for example pure red is ignored.", "quantifier": "all colors", "why_tests_cant": "Tests use a grey or full color.", "anchors": ["sumo-api/sumo/threedee/GltfModel.cpp:GltfModel::updateMaterial"]}
{"id": "C42", "title": "GLB packing keeps every buffer view's bytes", "statement": "Converting a glTF file set to one binary file produces a file whose length fields are consistent and whose chunks are 4-byte aligned, and every buffer view that stated a byte offset, and every image, denotes the same bytes as before (images followed by padding); a view that omits its byte offset and lives in a buffer after the first is redirected to offset 0 and denotes other bytes.", "quantifier": "all buffers, views and images", "why_tests_cant": "All buffer counts and lengths; defaulted offsets are rare in test data.", "anchors": ["sumo-api/sumo/threedee/glb_converter.pyx:gltf2glb", "sumo-api/sumo/threedee/glb_converter.pyx:BodyEncoder.add_to_body", "sumo-api/sumo/threedee/glb_converter.pyx:GlbEncoder.export_string"]}
{"id": "C43", "title": "Surface samples lie on the surface and have the requested density", "statement": "Every sampled point is a convex combination of the vertices of one triangle of the mesh, hence lies in the mesh's bounding box; the number of samples from a triangle is its area times the density rounded down, but at least one, so the total is the density times the surface area give or take one per triangle; each sample's color is the same combination of colors read inside the texture; and for uniform draws the point is uniform on its triangle.", "quantifier": "all meshes, densities and random draws", "why_tests_cant": "All random draws.", "anchors": ["sumo-api/sumo/threedee/model_sampler.pyx:ModelSampler", "sumo-api/sumo/metrics/mesh_evaluator.py:sample_mesh"]}
{"id": "C44", "title": "RGBD TIFF pages survive save and load", "statement": "Saving an image set to a TIFF and loading it gives back the same pages by type; the legacy page names are mapped to the current ones; loading a file without a depth page raises KeyError.", "quantifier": "all page sets", "why_tests_cant": "All combinations of page types, names and orders.", "anchors": ["sumo-api/sumo/images/rgbd_tiff.pyx:RgbdTiff", "sumo-api/sumo/images/RgbdTiff.cpp"]}
{"id": "C45", "title": "Cube map directions are distinct and have unit range", "statement": "For every pixel of every face the unprojected direction has maximum coordinate magnitude 1 on the face's axis; distinct pixels have distinct directions; and each pixel is on the face its column belongs to.", "quantifier": "all cube map sizes and pixels", "why_tests_cant": "All sizes.", "anchors": ["sumo-api/sumo/images/CubeMap.h:CubeMap"]}
{"id": "C46", "title": "Point cloud merging keeps points and colors aligned", "statement": "Merging clouds keeps all points in order; if both are colored every point keeps its own color; merging a colored cloud with an uncolored one raises ValueError in one order but in the other order silently yields a cloud with fewer colors than points.", "quantifier": "all pairs of clouds and all sequences of appends", "why_tests_cant": "Order-dependent misalignment.", "anchors": ["sumo-api/sumo/threedee/point_cloud.pyx:PointCloud.merge", "sumo-api/sumo/threedee/PointCloud.h:PointCloud::append"]}
{"id": "C47", "title": "Scenes survive save and load", "statement": "Saving a bounding-box, voxel or mesh scene to a new directory and loading it gives the same project type, settings and elements with the same ids, categories, symmetries, scores, evaluated flags and geometry, up to the printed precision of numbers and for element ids that are distinct and non-empty; saving never overwrites an existing project.", "quantifier": "all scenes", "why_tests_cant": "All element sets; duplicate ids collapse.", "anchors": ["sumo-api/sumo/semantic/project_scene.py:ProjectScene", "sumo-api/sumo/semantic/project_object_dict.py:ProjectObjectDict", "sumo-api/sumo/semantic/project_object.py:ProjectObject"]}
{"id": "C48", "title": "Malformed scene XML is not always rejected with ValueError", "statement": "Loading XML with a missing project type or wrong root raises ValueError as documented; an element without <id> or without <bounds>, or a scene without <elements>, raises an unbound-variable error instead.", "quantifier": "all XML trees", "why_tests_cant": "All malformed inputs.", "anchors": ["sumo-api/sumo/semantic/project_object.py:ProjectObject._parse_xml", "sumo-api/sumo/semantic/project_scene.py:ProjectScene.load"]}
{"id": "C49", "title": "Moving a scene moves every object and nothing else", "statement": "transform_pose gives a scene with the same keys, where each element's pose is the given transform composed with the old pose and all other element attributes are unchanged, and moving by T then by U equals moving by U composed with T; but the scene's settings are replaced by the defaults and the result cannot be saved because its elements are a plain dictionary.", "quantifier": "all scenes and transforms", "why_tests_cant": "All scenes, with a lost-attribute case.", "anchors": ["sumo-api/sumo/semantic/project_scene.py:ProjectScene.transform_pose", "sumo-api/sumo/semantic/project_object.py:ProjectObject.transform_pose"]}
{"id": "C50", "title": "Project conversion goes only downhill and keeps annotations", "statement": "Conversion succeeds exactly for meshes to voxels, meshes to boxes and voxels to boxes, keeps ids, poses, categories, symmetries, scores and evaluated flags, leaves the source project unchanged, and gives boxes equal to the geometry's bounds; converting meshes to voxels to boxes gives a box containing every sampled point.", "quantifier": "all projects", "why_tests_cant": "All element sets and all type pairs.", "anchors": ["sumo-api/sumo/semantic/project_converter.py:ProjectConverter"]}
{"id": "C51", "title": "Perceptual score is between 0 and 1", "statement": "With non-negative weights (and a positive room-scale weight) and non-zero deviations, the normalized perceptual score is the stated combination of bell curves and volume penalties and lies in [0,1] for every scene; a submission with exactly the ground-truth objects (each most similar to itself) scores 1 if and only if the ground truth has an evaluated floor area and no unevaluated one; without an evaluated ground-truth floor no submission reaches 1.", "quantifier": "all scenes and settings", "why_tests_cant": "Exponentials of arbitrary reals over all scenes.", "anchors": ["sumo-api/sumo/metrics/evaluator.py:Evaluator.perceptual_score", "sumo-api/sumo/metrics/evaluator.py:Evaluator._perceptual_score_1", "sumo-api/sumo/metrics/evaluator.py:Evaluator._room_scale"]}
{"id": "C52", "title": "Voxel evaluation swaps submission and ground truth", "statement": "The scores should be those of the submission against the ground truth; the voxel evaluator passes them to the base class in the opposite order, so its scores are those of the ground truth evaluated as if it were the submission, and there are scenes where these differ.", "quantifier": "all scenes", "why_tests_cant": "Tests use identical scenes, where the swap is invisible.", "anchors": ["sumo-api/sumo/metrics/voxel_evaluator.py:VoxelEvaluator.__init__"]}
{"id": "C53", "title": "The downloader converges and never loses an extracted archive", "statement": "For every behaviour of the server and every pattern of failing downloads and extractions, an archive in the folder is either left unchanged or deleted after all its members were extracted; it is marked as extracted only then; an archive that is there or marked is never requested again, over any number of runs; a run requests an archive at most three times and writes nothing but listed archives, members and marks; whatever happened before, a run that gets good archives ends with everything extracted and says so; it does not start without the required space.", "quantifier": "all failure patterns and all interleavings of workers", "why_tests_cant": "All failure schedules.", "anchors": ["tools/download_sumo_datasets.py"]}
{"id": "C54", "title": "A killed download leaves a poisoned archive", "statement": "A run killed by the operating system during a download should be recoverable by rerunning; instead the partial archive is taken as downloaded, is never fetched again, and can never be extracted, for any number of later runs; the same happens without a crash if the server cuts an answer short.", "quantifier": "all crash points and all numbers of later runs", "why_tests_cant": "Needs a crash at a particular point and an unbounded future.", "anchors": ["tools/download_sumo_datasets.py:download_one", "tools/download_sumo_datasets.py:get_zip_file_count"]}
{"id": "C55", "title": "Timing decorator restores the garbage collector", "statement": "A function wrapped by measure_time returns or raises exactly what it would unwrapped, and afterwards garbage collection is enabled if and only if it was enabled before or the wrapped function left it enabled.", "quantifier": "all functions, including raising and nested wrapped ones", "why_tests_cant": "All behaviours including exceptions.", "anchors": ["sumo-api/sumo/metrics/utils.py:measure_time"]}
{"id": "C56", "title": "Evaluator construction does not keep the caller's settings intact", "statement": "Constructing an evaluator with a settings dictionary replaces the caller's thresholds by their sorted array and changes nothing else; a mesh evaluator constructed without settings raises TypeError instead of using the defaults.", "quantifier": "all settings", "why_tests_cant": "Aliasing.", "anchors": ["sumo-api/sumo/metrics/evaluator.py:Evaluator.__init__", "sumo-api/sumo/metrics/mesh_evaluator.py:MeshEvaluator.__init__"]}
{"id": "C57", "title": "Pose error averages only evaluated matches", "statement": "The reported rotation and translation errors are non-negative, are infinity exactly when no threshold has a match to an evaluated element, and otherwise are the mean over the thresholds that have one of the mean over such matches; identical poses give zero.", "quantifier": "all scenes", "why_tests_cant": "Composition over all scenes.", "anchors": ["sumo-api/sumo/metrics/evaluator.py:Evaluator.pose_error"]}
{"id": "C58", "title": "AxisAngle and the camera constructors are what they say", "statement": "AxisAngle(d, a) for a unit vector d is a rotation that fixes d, turns vectors perpendicular to d by a in the right-handed sense, has trace 1 + 2 cos a, adds angles under composition, and is Rx/Ry/Rz for the coordinate axes; ENU_camera and Maya_camera are rotations whose optical axis points north (or -z) turned by yaw and pitch and is unaffected by roll.", "quantifier": "all unit axes and angles", "why_tests_cant": "Trigonometric identities over all axes and angles.", "anchors": ["sumo-api/sumo/geometry/rot3.pyx:Rot3.AxisAngle", "sumo-api/sumo/geometry/rot3.pyx:Rot3.ENU_camera", "sumo-api/sumo/geometry/rot3.pyx:Rot3.Maya_camera"]}
{"id": "C59", "title": "Pose formats round-trip", "statement": "FromMatrix34 inverts matrix34, from_json inverts to_json, FromColumns rebuilds a rotation from its columns, and column j of a rotation is the image of the j-th coordinate axis.", "quantifier": "all poses", "why_tests_cant": "Layout (row/column) mistakes cancel on symmetric test matrices.", "anchors": ["sumo-api/sumo/geometry/pose3.pyx:Pose3.FromMatrix34", "sumo-api/sumo/geometry/pose3.pyx:Pose3.to_json", "sumo-api/sumo/geometry/rot3.pyx:Rot3.FromColumns"]}
{"id": "C60", "title": "The bounding-box evaluator's quick test never rejects overlapping elements", "statement": "The posed bounding box of an element contains every point of its posed bounds and touches a posed corner on each face; the quick test rejects exactly when the two posed bounding boxes share no point, so rejected elements do not overlap; the similarity lies in [0,1] and is 1 for an element against itself, given an engine whose intersections are no larger than their operands.", "quantifier": "all poses, bounds and engines meeting the contract", "why_tests_cant": "All orientations and positions, including touching boxes.", "anchors": ["sumo-api/sumo/metrics/bb_evaluator.py:BBEvaluator.__init__", "sumo-api/sumo/metrics/bb_evaluator.py:BBEvaluator._shape_similarity"]}
{"id": "C61", "title": "Voxelizing a model never rejects its own samples", "statement": "Voxelizer.run on a non-empty sample and a positive voxel size succeeds; every sampled point lies in a reported voxel, every voxel holds a sampled point, and on each axis some voxel touches the minimum corner of the samples.", "quantifier": "all samples and voxel sizes > 0", "why_tests_cant": "The grid constructor raises for points below the corner, and the corner is computed from the same samples.", "anchors": ["sumo-api/sumo/threedee/voxelizer.pyx:Voxelizer"]}
{"id": "C62", "title": "The example cube mesh is a closed, consistently oriented box", "statement": "For every positive side length and both orientations, the example mesh has the eight corners of the cube, twelve triangles that form a closed surface with consistent orientation, every triangle faces outwards (or inwards when asked), and every vertex normal is a unit vector facing the same way.", "quantifier": "all positive side lengths and both orientations", "why_tests_cant": "A single wrong index in the table keeps counts and lengths intact and is invisible to size checks.", "anchors": ["sumo-api/sumo/threedee/Mesh.cpp:Mesh::Example", "sumo-api/sumo/threedee/Mesh.cpp:Mesh::EstimateNormals"]}
{"id": "C63", "title": "Mesh.cube does not return a defined mesh", "statement": "Mesh.cube should return the twelve triangles of a cube, but its index array is allocated uninitialised and never filled, so the returned indices can be any 36 numbers, including ones out of range.", "quantifier": "all possible contents of uninitialised memory", "why_tests_cant": "The result depends on memory contents that a test run does not control.", "anchors": ["sumo-api/sumo/threedee/mesh.pyx:Mesh.cube"]}
{"id": "C64", "title": "The textured cube faces inwards and uses the six texture tiles", "statement": "For every cube-map texture of size h by 6h with h positive, TexturedMesh.cube has twelve triangles, each facing the centre and agreeing with the unit normals at its corners; the corners of face f are mapped exactly to the corners of the f-th sixth of the texture. Any other texture shape raises AssertionError.", "quantifier": "all texture sizes", "why_tests_cant": "Tests render one texture size and compare images; the claim is over all sizes and every triangle.", "anchors": ["sumo-api/sumo/threedee/textured_mesh.pyx:TexturedMesh.cube"]}
{"id": "C65", "title": "Every texture of a model built by adding meshes is saved under its own name", "statement": "Saving the images of a model writes every image under its URI and never overwrites one, as long as the URIs are distinct; for any sequence of meshes added to an empty model they are distinct, so every texture of every mesh is among the files. For a model loaded from disk and then extended this fails: a new image is named by its position and can take the name of an existing one, which is lost.", "quantifier": "all sequences of meshes; all models with distinct URIs", "why_tests_cant": "Tests save models with one or two textures; the collision needs particular existing names.", "anchors": ["sumo-api/sumo/threedee/GltfModel.cpp:GltfModel::saveImages", "sumo-api/sumo/threedee/GltfModel.cpp:GltfModel::addTexture"]}
{"id": "C66", "title": "Comparing and constructing materials", "statement": "has_same_material is true exactly when the names, the parameter keys and the texture indices agree; colors and factors are not compared. A newly made textured mesh is dual-textured exactly when it has a roughness texture, but is not any more after it was extracted from a model with an earlier texture. from_mesh promises no roughness texture but always adds a black one.", "quantifier": "all materials and meshes", "why_tests_cant": "Tests compare a mesh with itself.", "anchors": ["sumo-api/sumo/threedee/Mesh.cpp:Mesh::hasSameMaterial", "sumo-api/sumo/threedee/TexturedMesh.cpp:TexturedMesh::hasDualTextureMaterial", "sumo-api/sumo/threedee/textured_mesh.pyx:TexturedMesh.from_mesh"]}
{"id": "C67", "title": "Saving a model as .glb and loading it gives back every mesh", "statement": "Saving a model to an absolute .glb path changes only that file (temporary files are removed, the current folder is restored), and loading the file gives a model from which every mesh is extracted exactly as from the original: in particular for any non-empty list of well-formed meshes added to an empty model, the loaded meshes are the added ones. The only other outcome of saving is an overflow error for files of 4 GiB and more, which leaves an empty file.", "quantifier": "all models with one buffer, all file systems, all formats that satisfy the contract", "why_tests_cant": "Tests save one model to one place; the claim covers all models, all paths and everything else on the disk.", "anchors": ["sumo-api/sumo/threedee/gltf_model.pyx:GltfModel.save_as_glb", "sumo-api/sumo/threedee/gltf_model.pyx:GltfModel.save_as_gltf", "sumo-api/sumo/threedee/gltf.pyx:load_binary_from_file", "sumo-api/sumo/threedee/glb_converter.pyx:gltf2glb"]}
{"id": "C68", "title": "What saving a model as .glb loses", "statement": "Saving to a bare file name returns without an error but leaves no file (it is written into the temporary folder, which is removed). Another extension raises AssertionError and leaves the temporary folder behind. A model with a material that has neither name nor parameters (as every new untextured mesh has) is saved without an error, but loading the file always fails. With two buffers the first is lost; the metallic and roughness numbers of a colored material are lost.", "quantifier": "all models and file systems for the path, extension and material claims; witnesses for the others", "why_tests_cant": "Tests save textured models with one buffer to absolute paths.", "anchors": ["sumo-api/sumo/threedee/gltf_model.pyx:GltfModel.save_as_glb", "sumo-api/sumo/threedee/tiny_gltf/tiny_gltf.h:SerializeGltfMaterial", "sumo-api/sumo/threedee/GltfModel.cpp:GltfModel::addColoredMaterial"]}
{"id": "C69", "title": "Sampling commutes with moving the object, and the two samplers agree", "statement": "With the same random draws, sampling an object in any pose gives exactly the moved samples of the object at the origin, and ModelSampler and the mesh evaluator's sampler return the same rows whenever there is at least one triangle.", "quantifier": "all meshes, rigid poses, densities and draws", "why_tests_cant": "Both samplers are random, so tests compare only statistics.", "anchors": ["sumo-api/sumo/threedee/model_sampler.pyx:_sample_mesh", "sumo-api/sumo/metrics/mesh_evaluator.py:sample_mesh"]}
{"id": "C70", "title": "Texture lookup and degenerate inputs of the samplers", "statement": "Sampled colors should be those glTF texture coordinates denote (first coordinate along the width), vertices without coordinates should be handled since the mesh class allows them, and a model without meshes should give an empty sample; in the code the two coordinates are exchanged, missing coordinates are an IndexError and a model without meshes is a TypeError.", "quantifier": "existence of counterexamples, and all meshes with missing coordinates", "why_tests_cant": "Tests use square or untextured models only.", "anchors": ["sumo-api/sumo/metrics/mesh_evaluator.py:sample_element", "sumo-api/sumo/threedee/model_sampler.pyx:ModelSampler"]}
{"id": "C71", "title": "Registering, summing and transforming point clouds", "statement": "Transforming keeps every color with its point and is undone by the inverse direction; register gives all clouds moved by their poses, in order and with their colors, and commutes with a change of frame; sum joins clouds that are all colored or all uncolored and is 0 for no clouds. With mixed clouds register aborts if compiled with assertions and otherwise silently gives a cloud with fewer colors than points; sum raises ValueError when an empty cloud follows a colored one although register accepts it.", "quantifier": "all lists of clouds, poses, and both compilation modes", "why_tests_cant": "Alignment must hold for every combination of colored, uncolored and empty clouds.", "anchors": ["sumo-api/sumo/threedee/point_cloud.pyx:PointCloud.register", "sumo-api/sumo/threedee/point_cloud.pyx:PointCloud.__add__", "sumo-api/sumo/threedee/PointCloud.h:PointCloud"]}
{"id": "C72", "title": "Thinning selects points with their colors, but with repetition", "statement": "thin returns exactly the requested number of points, each a point of the cloud with its own color; the points are drawn with replacement, so keeping all points of a cloud may lose some and repeat others; an empty cloud or a negative number is a ValueError.", "quantifier": "all clouds, counts and draws", "why_tests_cant": "The selection is random.", "anchors": ["sumo-api/sumo/threedee/point_cloud.pyx:PointCloud.thin"]}
{"id": "C73", "title": "Reading and writing PLY files", "statement": "write_ply writes the PLY header for the points (and colors) followed by the coordinates of every point as little-endian floats and its three color bytes. Loading a binary PLY file of either byte order, with any further elements and scalar properties before and after, gives exactly the x, y, z of the vertices in order; loading a written file gives the points with coordinates rounded to single precision, and without colors. Comment, obj_info and blank lines inside the header change nothing.", "quantifier": "all clouds with fewer than 2^64 points, all header spellings and extra elements, all coordinates", "why_tests_cant": "Tests load one file; the claim covers all files of the format, including extra properties and big-endian data.", "anchors": ["sumo-api/sumo/threedee/point_cloud_ply_c.cpp:read_points_cpp", "sumo-api/sumo/threedee/point_cloud_ply.pyx:read_points", "sumo-api/sumo/threedee/point_cloud.pyx:PointCloud.write_ply", "sumo-api/sumo/threedee/point_cloud.pyx:PointCloud.load_ply", "sumo-api/sumo/threedee/tinyply/tinyply.cpp:PlyFile"]}
{"id": "C74", "title": "Damaged and unusual PLY files", "statement": "Loading a damaged file should raise an error. In the code a file cut anywhere in its data loads without error and all coordinates of all points are one and the same number; a missing file or missing vertices end the process instead of raising; coordinates stored as doubles overflow a buffer; coordinates listed in another order are exchanged; the empty cloud is written to a file that cannot be loaded; a cloud with fewer colors than points is written from memory beyond the colors.", "quantifier": "all clouds and cut positions; all files with double coordinates; all files without vertices", "why_tests_cant": "Tests only load well-formed files.", "anchors": ["sumo-api/sumo/threedee/point_cloud_ply_c.cpp:read_points_cpp", "sumo-api/sumo/threedee/point_cloud_ply.pxd:read_points_cpp", "sumo-api/sumo/threedee/tinyply/tinyply.cpp:PlyFile::read"]}
{"id": "C75", "title": "Voxel grid files keep the grid; their errors are not the documented ones", "statement": "Saving a voxel grid and loading the file gives the same grid (32-bit coordinates), changes no other file, and grids saved to different files do not disturb each other. Saving or loading where the file cannot be opened should raise IOError; it raises an unbound-variable error. The name is used as it is: .h5 is not appended, though this is documented.", "quantifier": "all grids, file systems and paths", "why_tests_cant": "Tests save and load one grid and never open a missing file.", "anchors": ["sumo-api/sumo/threedee/voxel_grid.py:VoxelGrid.save", "sumo-api/sumo/threedee/voxel_grid.py:VoxelGrid.load", "sumo-api/sumo/threedee/voxel_grid.py:VoxelGrid.from_file"]}
{"id": "C76", "title": "The faces of a cube map join up", "statement": "Going round the four side faces of the cube map, across their borders and back to the start, the direction changes continuously, by at most two units per side length; the faces above and below meet the front and back faces in the same directions along their common edge.", "quantifier": "all cube map sizes and all places, not only pixel centres", "why_tests_cant": "Seams must be checked for every place on every edge.", "anchors": ["sumo-api/sumo/images/CubeMap.h:CubeMap"]}
{"id": "C77", "title": "The image classes keep their images through a file", "statement": "Rgbd360 and Rgbdci360 accept exactly images of the right types and raise TypeError for others; what they save is loaded with the same color, category and instance images and the ranges as far as 16 bits hold them; an Rgbd360 file cannot be loaded as Rgbdci360 (KeyError), an Rgbdci360 file can be loaded as Rgbd360 and gives two of the four images; MultiImageTiff returns each page or None.", "quantifier": "all images, near planes, file systems and paths", "why_tests_cant": "Tests save and load one picture.", "anchors": ["sumo-api/sumo/images/rgbd_360.pyx:Rgbd360", "sumo-api/sumo/images/rgbdci_360.pyx:Rgbdci360", "sumo-api/sumo/images/multi_image_tiff.pyx:MultiImageTiff"]}
{"id": "C78", "title": "Neither names nor the coordinate frame matter", "statement": "Giving the objects of submission and ground truth other (distinct) ids, and describing both scenes in another coordinate frame, gives the same matches under the new names and the same scores: shape and semantics score and point distances under every rigid motion, the pose error under every rigid motion if the symmetries of the ground truth are discrete or spherical, and the perceptual score under turns about the vertical axis and shifts. The pose error of cylindrical objects and the perceptual score under tilts do depend on the frame.", "quantifier": "all scenes (including duplicate, empty and failing ones), injective renamings, rigid motions, thresholds and categories", "why_tests_cant": "Tests use one frame and one set of ids.", "anchors": ["sumo-api/sumo/metrics/evaluator.py:Evaluator", "sumo-api/sumo/metrics/mesh_evaluator.py:MeshEvaluator", "sumo-api/sumo/metrics/utils.py:points_iou", "sumo-api/sumo/metrics/evaluator.py:Evaluator.pose_error", "sumo-api/sumo/metrics/evaluator.py:Evaluator.perceptual_score"]}
{"id": "C79", "title": "A copy of the ground truth gets the best scores, if its objects can be told apart", "statement": "A submission with the same objects as the ground truth (ids, scores and order of detection may differ), each more similar to its original than to any other object, is matched to its originals at every threshold; its shape score is n/(n+epsilon) for n evaluated objects, its semantics score the mean of this over the scored categories, no submission scores higher, and its point and pose errors are 0 (no cylindrical axes). In the mesh track objects can be told apart when each two have a sampled point further than the distance threshold from the other object; with closer objects a scene compared with itself can get less than full marks.", "quantifier": "all scenes keyed by id, similarities, thresholds, categories and competing submissions", "why_tests_cant": "Being the best possible score is a statement about all submissions.", "anchors": ["sumo-api/sumo/metrics/evaluator.py:Evaluator.shape_score", "sumo-api/sumo/metrics/evaluator.py:Evaluator.semantics_score", "sumo-api/sumo/metrics/evaluator.py:Evaluator._compute_agnostic_data_assoc", "sumo-api/sumo/metrics/utils.py:compute_auc_ap", "sumo-api/sumo/metrics/utils.py:points_rmsssd", "sumo-api/sumo/metrics/evaluator.py:Evaluator.pose_error"]}
{"id": "C80", "title": "What additional detections can and cannot do to the scores", "statement": "Detections added to a submission that are less confident than everything submitted, or are similar enough to nothing, leave the matches of the other detections as they are. With less confident ones the shape and semantics score are never lower, with useless ones they are never higher, with useless ones of little confidence they are unchanged; undefined scores stay undefined. A confident detection of an object that really is there can lower the score.", "quantifier": "all scenes keyed by id, similarities, thresholds, categories, numbers of added detections, argsort implementations; detections with distinct scores", "why_tests_cant": "A statement about two runs with arbitrarily many added detections; tests compare one run with numbers.", "anchors": ["sumo-api/sumo/metrics/evaluator.py:Evaluator._compute_agnostic_data_assoc", "sumo-api/sumo/metrics/evaluator.py:Evaluator.shape_score", "sumo-api/sumo/metrics/evaluator.py:Evaluator.semantics_score", "sumo-api/sumo/metrics/utils.py:compute_auc_ap", "sumo-api/sumo/metrics/evaluator.py:Evaluator._compute_category_data_assoc"]}
{"id": "C81", "title": "A report has all its numbers, in range and consistent, or there is an error", "statement": "evaluate_all of the box track returns exactly the five documented entries, that of the mesh and voxel tracks two more (rms_points_error, rms_color_error). Shape and semantics score are in [0,1], or nan exactly when there is nothing to find; the rotation error is in [0,pi], the other errors are at least 0, or they are infinite; the perceptual score is in [0,1]. Rotation and translation error are infinite together, and exactly when the shape score is 0 or nan; point and color error are infinite together, and then the pose errors are, too. tools/evaluate-one.py prints the five documented numbers in their order for two scenes of the same type with the default settings, refuses scenes of different types with ValueError and passes on the error of a scene that cannot be loaded, the ground truth's first. One metric that raises loses the whole report (a zero threshold and an element without points), and with voxels nan is printed for an empty submission although there is something to find.", "quantifier": "all scenes keyed by id, similarities, thresholds, categories, settings, and results of loading; all argsort, logarithm and nearest-neighbour implementations that meet their contracts", "why_tests_cant": "Consistency between the metrics (e.g. shape score 0 exactly when the pose errors are infinite) is a statement about all pairs of scenes; the program is not tested at all.", "anchors": ["sumo-api/sumo/metrics/bb_evaluator.py:BBEvaluator.evaluate_all", "sumo-api/sumo/metrics/mesh_evaluator.py:MeshEvaluator.evaluate_all", "sumo-api/sumo/metrics/voxel_evaluator.py:VoxelEvaluator.evaluate_all", "sumo-api/sumo/metrics/mesh_evaluator.py:MeshEvaluator.rms_points_error", "sumo-api/sumo/metrics/mesh_evaluator.py:MeshEvaluator.rms_color_error", "tools/evaluate-one.py:main"]}
{"id": "C82", "title": "Quaternions, rotation matrices and Surreal poses stand for the same rotation", "statement": "Quaternion() is the identity; a quaternion made from a vector (w,x,y,z) other than 0 gives that vector back and the rotation matrix that turns vectors as the quaternion does; two of them have the same matrix exactly if one is a nonzero multiple of the other. A quaternion made from a rotation matrix is a unit quaternion with this matrix, whatever the strides of the array. The shapes and element types that are accepted are exactly characterised, as are the errors for the others. Pose3.from_surreal inverts to_surreal and raises KeyError if a key is missing. A 3x3 array of another number type than double is undefined behaviour, and a translation of the wrong length is accepted.", "quantifier": "all quaternions, rotation matrices, array layouts, shapes, element types, dictionaries; all Eigen implementations that meet the contract", "why_tests_cant": "Tests convert a few fixed rotations in packed double arrays.", "anchors": ["sumo-api/sumo/geometry/quaternion.pyx:Quaternion", "sumo-api/sumo/geometry/pose3.pyx:Pose3.from_surreal", "sumo-api/sumo/geometry/pose3.pyx:Pose3.to_surreal", "sumo-api/sumo/base/vector.pyx:matrix3_of_array", "sumo-api/sumo/base/vector.pyx:array_from_matrix3"]}
{"id": "C83", "title": "unitize keeps the direction, on_left is a half-space", "statement": "unitize returns the positive multiple of length 1 of a vector that is not 0, and the argument itself for 0; positive multiples have the same result, negative ones the opposite, and doing it twice changes nothing. on_left(N,p,a,b) holds exactly for the points of the closed half-space to the left of the line from a to b seen against N: reversing the line is the same as reversing N, one of both always holds, both exactly on the boundary; rigid motions, shifts along N or the line and positive factors of N do not matter, and the region is convex. It holds for all points exactly if a = b, N = 0 or N is parallel to the line. With column vectors (as in the rest of the module) on_left raises an error.", "quantifier": "all vectors of every length; all normals, points, lines, rigid motions and factors", "why_tests_cant": "Tests try a handful of points.", "anchors": ["sumo-api/sumo/base/vector.pyx:unitize", "sumo-api/sumo/base/vector.pyx:on_left"]}
{"id": "C84", "title": "Images keep their pixels between numpy and OpenCV, if they are packed", "statement": "The typed conversions of C-contiguous arrays of their element type and number of axes give an image on the same memory with every pixel where the array has it, and give a null pointer, without an exception (Cython drops it), for all other arrays; so Rgbdci360.create_point_cloud is undefined for images that are not C-contiguous. The conversions to numpy of images without gaps between the rows give a new packed array with the same bytes and write to nothing else. The general conversions accept exactly the documented types; mat_from_array is right for rows of packed pixels at any positive distance. A texture with 3 channels given to TexturedMesh comes back from base_color byte by byte; from_mesh paints every pixel with a color of three entries. Not so: arrays with a column stride (mat_from_array), arrays with 4 channels (mat3b_from_array, hence RGBA textures and colors), images with gaps between rows, images with more than 2^31 bytes.", "quantifier": "all arrays (shapes, strides, element types, addresses), images, memory contents and sizes", "why_tests_cant": "Tests convert whole packed pictures of one size only; views, gaps and a fourth channel never occur.", "anchors": ["sumo-api/sumo/opencv/wrap.pyx:mat_from_array", "sumo-api/sumo/opencv/wrap.pyx:array_from_mat", "sumo-api/sumo/opencv/wrap.pyx:mat3b_from_array", "sumo-api/sumo/opencv/wrap.pyx:array_from_mat3b", "sumo-api/sumo/threedee/textured_mesh.pyx:TexturedMesh"]}
{"id": "C85", "title": "almost_equal and the assertions of rotations, poses and boxes", "statement": "Rot3.almost_equal, Pose3.almost_equal and Box3d.almost_equal hold exactly if the images of the axes and the origin (the two corners) agree entry by entry within atol + rtol times the second value; almost equal poses then move every point almost to the same place, with an explicit bound that grows with the point. assert_equal and Box3d == hold exactly for equal values, as does almost_equal with tolerances 0. It is reflexive, and symmetric and transitive with larger tolerances only: with the default ones it is neither symmetric nor transitive. assert_almost_equal passes exactly if every entry differs by less than 1.5 units of the decimal place, and is symmetric. Neither comparison implies the other.", "quantifier": "all rotations, poses and boxes, all nonnegative tolerances, all points", "why_tests_cant": "Tests compare a value with itself and with one clearly different value.", "anchors": ["sumo-api/sumo/geometry/rot3.pyx:Rot3.almost_equal", "sumo-api/sumo/geometry/rot3.pyx:Rot3.assert_almost_equal", "sumo-api/sumo/geometry/pose3.pyx:Pose3.almost_equal", "sumo-api/sumo/threedee/box_3d.pyx:Box3d.almost_equal", "sumo-api/sumo/threedee/box_3d.pyx:Box3d.__eq__"]}
{"id": "C86", "title": "almost_equal of models, objects and project object dictionaries", "statement": "GltfModel.same_size holds exactly if the models have the same number of primitive meshes with pairwise the same numbers of indices and vertices. ProjectObject.almost_equal holds exactly if identifier, category, symmetry and evaluated agree, pose and score are almost equal and the meshes, if the first object has any, have the same size; bounds, voxels and project type are never looked at. Dictionaries are almost equal exactly if they have the same keys with almost equal objects. Hence two objects of the bounding box track with disjoint boxes are almost equal, and an object without meshes is almost equal to one with meshes, while the other order raises AttributeError. d[k] = v keeps anything but objects out of a ProjectObjectDict; update, setdefault and the constructor do not.", "quantifier": "all models, objects and dictionaries; all sequences of assignments and deletions", "why_tests_cant": "Tests compare an object with a copy of it.", "anchors": ["sumo-api/sumo/semantic/project_object.py:ProjectObject.almost_equal", "sumo-api/sumo/semantic/project_object_dict.py:ProjectObjectDict.almost_equal", "sumo-api/sumo/semantic/project_object_dict.py:ProjectObjectDict.__setitem__", "sumo-api/sumo/threedee/gltf_model.pyx:GltfModel.same_size", "sumo-api/sumo/threedee/mesh.pyx:Mesh.same_size"]}
{"id": "C87", "title": "Which poses change when an entry of a pose is assigned", "statement": "In a program that only makes poses (Pose3(), Pose3(R,t), cameras, compose, inverse, deepcopy, FromMatrix34, poses from parts of others) every pose is the value the operations compute, and Pose3() is the identity. If a program assigns to an entry of a translation, a rotation matrix or an array, exactly the poses that have the array from the same place change, in this entry only; for a pose and its inverse in the transposed entry of the rotation. The places are: the default arguments of Pose3 (shared by all poses made without arguments), those of the two camera functions, and the operation that made the array. Copies and compositions share nothing. Pose3() stays the identity as long as nobody assigns to a pose made with the defaults; afterwards it is not, and an inverse made before an assignment is no longer the inverse.", "quantifier": "all finite programs of these operations, all values and entries", "why_tests_cant": "Tests never assign to the entries of a pose; the effect shows up in other objects, far away.", "anchors": ["sumo-api/sumo/geometry/pose3.pyx:Pose3.__init__", "sumo-api/sumo/geometry/pose3.pyx:Pose3.inverse", "sumo-api/sumo/geometry/pose3.pyx:Pose3.FromMatrix34", "sumo-api/sumo/geometry/rot3.pyx:Rot3.inverse", "sumo-api/sumo/geometry/pose3.pyx:Pose3.ENU_camera"]}
{"id": "C88", "title": "Which scenes change when a setting is assigned", "statement": "scene.settings[k] = v changes the settings of exactly the scenes with the same dictionary: all scenes made without settings, including the results of transform_pose, share DEFAULT_SETTINGS; a scene made with another scene's settings shares those; loaded and converted scenes have their own. A new or moved scene has the default settings as long as nobody assigned to those of such a scene, and not afterwards. A converted scene has the settings of the scene it is made from; a moved scene does not keep its settings.", "quantifier": "all finite programs that make, move and convert scenes and assign settings", "why_tests_cant": "Tests never assign settings.", "anchors": ["sumo-api/sumo/semantic/project_scene.py:ProjectScene.__init__", "sumo-api/sumo/semantic/project_scene.py:ProjectScene.transform_pose", "sumo-api/sumo/semantic/project_converter.py:ProjectConverter.run"]}
{"id": "C89", "title": "Average precision in double arithmetic", "statement": "With every operation rounded as in IEEE 754 double precision: the recall at each position is the nearest double to the exact quotient, the precision after the second position is the nearest double to the best exact quotient from there on (the added epsilon has no effect from the second detection on; at the first a correct detection has precision 1 - 2^-52), both lie in [0,1], recall ascends and precision descends. compute_auc_ap returns a double that is not negative, is 0 exactly without correct detections, and differs from the exact average precision by at most (number of correct detections) * 2^-49. It is not always at most 1 (nine correct detections of nine objects give 1 + 2^-52) and a perfect submission does not always get 1 (one of one gives 1 - 2^-52). With area_under_curve=False the mean of the precisions is in [0,1] whatever the order of the additions, within n * 2^-52 of the exact mean.", "quantifier": "all matches, scores and orders of equal scores, all numbers of detections and objects up to 2^48, all orders of summation", "why_tests_cant": "Tests compare a few values up to some decimals; an excess of 2^-52 over 1 depends on the number of objects.", "anchors": ["sumo-api/sumo/metrics/utils.py:compute_auc_ap", "sumo-api/sumo/metrics/utils.py:compute_pr", "sumo-api/sumo/metrics/utils.py:compute_ap"]}
{"id": "C90", "title": "Default thresholds and recall samples as doubles", "statement": "np.linspace(0.25, 0.75, 11) gives the nearest doubles to 0.25, 0.3, ..., 0.75 except for 0.6, where it gives the next larger double. A pair whose similarity is a quotient of point counts (points_iou) is kept by the association at threshold number i exactly if the exact quotient is at least 0.25 + 0.05 i, but at 0.6 exactly if it is larger: an overlap of exactly 3/5 is discarded. np.linspace(0, 1, 11): the precision compute_pr reports for recall sample i is that of the first detection whose recall reaches i/10 - exceeds it for 0.3, 0.6 and 0.7 - and 0 if there is none: three correct detections of ten objects get precision 0 at recall 0.3.", "quantifier": "all counts up to 2^46, all thresholds and samples, all detections and scores", "why_tests_cant": "Only overlaps that hit a threshold exactly show the effect.", "anchors": ["sumo-api/sumo/metrics/evaluator.py:Evaluator.default_settings", "sumo-api/sumo/metrics/evaluator.py:Evaluator._compute_agnostic_data_assoc", "sumo-api/sumo/metrics/utils.py:points_iou", "sumo-api/sumo/metrics/utils.py:compute_pr"]}
{"id": "C91", "title": "Scores in double arithmetic", "statement": "With every operation rounded as in IEEE 754 double precision and with any order of the additions in np.mean, shape_score and semantics_score are NaN exactly when they have nothing to average; otherwise they are doubles, not negative, and differ from the exact mean over thresholds (and scored categories) of the average precisions by at most (evaluated objects + 1 + number of averaged values) * 2^-49. They can exceed 1: a perfect submission of nine objects gets 1 + 2^-52.", "quantifier": "all scenes keyed by id, similarities, thresholds, categories, orders of equal scores and orders of summation; up to 2^48 detections, objects and averaged values", "why_tests_cant": "Tests compare scores up to a few decimals on a few scenes and one summation order; they cannot bound the error for all of them.", "anchors": ["sumo-api/sumo/metrics/evaluator.py:Evaluator.shape_score", "sumo-api/sumo/metrics/evaluator.py:Evaluator.semantics_score"]}
{"id": "C92", "title": "Which points a box contains", "statement": "point_in_box of a vector of three coordinates is true exactly for the points of the interior of the box (a ball around the point stays in the box), so for no corner; for an array of points as rows it is true exactly if all are in the interior, also for no rows. For points as columns, the layout of meshes and clouds, it is not: the call raises ValueError unless there are one or three columns, one column is compared as if the box were a cube, three columns are taken for rows, so that points inside are rejected and points outside accepted. corners gives the eight points whose coordinates are those of the two corners, the box is their convex hull; the center lies in the box, halves it, has the same distance from all corners and is inside exactly if the volume is positive; the volume is not negative, positive exactly if some point is inside, and not larger for a contained box. The corner attributes are documented as read-only, but assigning their entries gives a box of negative volume.", "quantifier": "all boxes and points, all arrays of rows and of columns", "why_tests_cant": "Tests try a handful of points of one shape; degenerate boxes, boundaries and column vectors are not among them.", "anchors": ["sumo-api/sumo/threedee/box_3d.pyx:Box3d.point_in_box", "sumo-api/sumo/threedee/box_3d.pyx:Box3d.corners", "sumo-api/sumo/threedee/box_3d.pyx:Box3d.center", "sumo-api/sumo/threedee/box_3d.pyx:Box3d.volume", "sumo-api/sumo/threedee/box_3d.pyx:Box3d.min_corner"]}
{"id": "C93", "title": "Meshes behind Python objects", "statement": "In every program that makes, copies, reads, merges, replaces, renumbers, cleans and deletes Mesh and TexturedMesh objects, also with repeated __init__, Mesh methods called on a TexturedMesh and exceptions caught: no mesh is freed twice, used after it was freed, or used as a TexturedMesh though it is none; a null pointer is used only after __new__ or with None as argument. Without repeated __init__ and models with broken primitives there is exactly one mesh per object that has one, and deleting the objects frees all meshes. A statement changes what an object shows only if it is applied to that object, and nothing if it raises an exception. merge and replace_geometry of two distinct objects do what the C++ functions do and leave the second object and the textures alone; TexturedMesh.merge refuses a plain Mesh with TypeError. primitive_meshes gives one new object for each primitive. Not so: a second __init__, Mesh.__init__ on a TexturedMesh, and primitive_meshes of a model with a broken primitive leak meshes that no program can free; merging a mesh that has triangles with itself is undefined; replace_geometry of an object with itself empties it.", "quantifier": "all programs of any length over any number of objects", "why_tests_cant": "Leaks, double frees and aliasing do not show in the results of unit tests, which use each object once.", "anchors": ["sumo-api/sumo/threedee/mesh.pyx:Mesh.__init__", "sumo-api/sumo/threedee/mesh.pyx:Mesh.__dealloc__", "sumo-api/sumo/threedee/mesh.pyx:Mesh.merge", "sumo-api/sumo/threedee/mesh.pyx:Mesh_usurp", "sumo-api/sumo/threedee/textured_mesh.pyx:TexturedMesh.__init__", "sumo-api/sumo/threedee/textured_mesh.pyx:TexturedMesh_usurp", "sumo-api/sumo/threedee/GltfModel.cpp:GltfModel::getPolymorphicPrimitiveMeshes", "sumo-api/sumo/threedee/gltf_model.pyx:GltfModel.primitive_meshes"]}
{"id": "C94", "title": "Arrays become meshes and come back; rotate and transform", "statement": "Mesh(indices, vertices, normals) and TexturedMesh(indices, vertices, normals, uv_coords, textures) with three rows (two for uv_coords) give back exactly these arrays from indices(), vertices(), normals(), uv_coords(), base_color() and metallic_roughness(). They raise AssertionError exactly when the numbers of columns disagree. Not so: a wrong number of rows is not reported; points given as rows give a mesh with the indices and no vertices, three points given as rows give other points, and the indices of such a mesh lead estimate_normals outside the array. rotate and transform keep class, indices, texture coordinates, textures and the number of vertices, move every vertex by the pose and every normal by its rotation up to float32 rounding; without rounding, they compose, the inverse pose gives the mesh back, and distances stay. They do not keep the material. from_mesh keeps the geometry and sets all texture coordinates to zero. from_open3d_mesh keeps vertices and triangles in order and computes normals (in its argument too) only if there is not one for each vertex. Face normals and estimated normals of the moved vertices are the rotated normals.", "quantifier": "all arrays of all shapes, all meshes, rotations and poses, all roundings, with and without C++ assertions", "why_tests_cant": "Tests use arrays of the documented shape and one rotation.", "anchors": ["sumo-api/sumo/base/vector.pyx:vector3fs_of_array", "sumo-api/sumo/base/vector.pyx:array_of_vector3fs", "sumo-api/sumo/threedee/mesh.pyx:Mesh.__init__", "sumo-api/sumo/threedee/mesh.pyx:Mesh.rotate", "sumo-api/sumo/threedee/mesh.pyx:Mesh.transform", "sumo-api/sumo/threedee/mesh.pyx:Mesh.from_open3d_mesh", "sumo-api/sumo/threedee/mesh.pyx:Mesh.estimate_normals", "sumo-api/sumo/threedee/textured_mesh.pyx:TexturedMesh.__init__", "sumo-api/sumo/threedee/textured_mesh.pyx:TexturedMesh.transform", "sumo-api/sumo/threedee/textured_mesh.pyx:TexturedMesh.from_mesh"]}
{"id": "C95", "title": "Buffers and images beside and inside a .gltf file: base 64, data URIs, file names", "statement": "Decoding the base 64 encoding of bytes gives the bytes back. The encoding is the standard one: digits of six bits, most significant first, and at most two '='; four characters for every three bytes begun. Decoding stops without an error at the first character that is no digit: what comes before it is the result, 3n/4 bytes for n digits. A buffer or image in a data URI with one of seven headers is read back if it is not empty; a buffer only if byteLength is right; an image of a data URI with a line break is silently cut off. Not so: an embedded empty buffer cannot be loaded, and data URIs with other headers are taken for file names. A .gltf file folder/root.gltf is saved with its buffer in folder/root.bin, and loading it gives the buffer back, if it is not empty and the names consist of letters, digits and - . _ /. Not so: a .gltf file in the root folder puts its data into the current folder, a backslash in the name moves the data into another folder, a blank in the folder name makes loading fail. A buffer that is missing beside the .gltf file is looked for in the current folder. A missing buffer is an error for .gltf, silently an empty buffer for .glb, and a missing image is silently without pixels.", "quantifier": "all byte sequences, all texts after the headers, all folders, file names and file systems, all expansions of file names that leave plain names alone and cut at blanks", "why_tests_cant": "Tests load two fixed files from one folder.", "anchors": ["sumo-api/sumo/threedee/tiny_gltf/tiny_gltf.h:base64_encode", "sumo-api/sumo/threedee/tiny_gltf/tiny_gltf.h:base64_decode", "sumo-api/sumo/threedee/tiny_gltf/tiny_gltf.h:DecodeDataURI", "sumo-api/sumo/threedee/tiny_gltf/tiny_gltf.h:IsDataURI", "sumo-api/sumo/threedee/tiny_gltf/tiny_gltf.h:FindFile", "sumo-api/sumo/threedee/tiny_gltf/tiny_gltf.h:LoadExternalFile", "sumo-api/sumo/threedee/tiny_gltf/tiny_gltf.h:ParseBuffer", "sumo-api/sumo/threedee/tiny_gltf/tiny_gltf.h:ParseImage", "sumo-api/sumo/threedee/tiny_gltf/tiny_gltf.h:TinyGLTF::WriteGltfSceneToFile"]}
{"id": "C96", "title": "JSON, and the image description of a TIFF file as text", "statement": "The JSON parser (picojson) accepts exactly the JSON of RFC 8259, except that numbers may have leading zeros and may lack the digits on one side of the point; it gives the value (an int64 where the text is an integer that fits, otherwise the nearest double; the last of equal names; UTF-8 for escapes) and the rest of the text. Not so: only JSON is accepted (01 is). What is written, compact or indented, is JSON. It is read back as the same value, except that doubles that are integers below 10^17 come back as int64; written once more it is the same text. 17 digits are enough for every double. The compact form has no control characters. The only exception of the parser is overflow_error for a number that is too large for a double. Writing the near plane into the image description of a TIFF file and reading it gives version 1 and the near plane, whatever comes behind the text. Any object is read according to its members version and near, with runtime_error for wrong types; without an opening brace there is an error; without a description version 0 and near plane 1 are used. A text that is cut off inside the first name is read without an error as version 0 and near plane 1. Not so: a text that is cut off later is noticed (the number may lose its last digits).", "quantifier": "all byte sequences, all values, all doubles, all near planes, all conversions to float", "why_tests_cant": "Tests write and read one near plane.", "anchors": ["sumo-api/sumo/images/picojson.h:_parse", "sumo-api/sumo/images/picojson.h:_parse_string", "sumo-api/sumo/images/picojson.h:_parse_number", "sumo-api/sumo/images/picojson.h:value::_serialize", "sumo-api/sumo/images/picojson.h:value::to_str", "sumo-api/sumo/images/RgbdTiff.cpp:readMetadata", "sumo-api/sumo/images/RgbdTiff.cpp:writeMetadata"]}
{"id": "C97", "title": "A whole glTF document, saved and loaded", "statement": "A model with one buffer and with something in each required section is saved, with its data in the .bin file beside the .gltf file and no other file changed, and loading gives exactly the model that Doc/Spec describes field by field: all sections, indices, names, materials, numbers (as far as the text keeps doubles), extensions and extras are kept, except for what is listed next. Not so: everything is kept (names of accessors and samplers, normalized, the name of a camera, copyright, the position of a node that also has a matrix, and animations without channels are lost; names of materials and the lights appear twice; empty extensions such as KHR_materials_unlit are lost; integers in extras are taken modulo 2^32 and nulls vanish; a primitive without attributes vanishes). Saving what was loaded and loading it again changes neither a file nor the model. Models without scenes, nodes, accessors, buffers or views, with a scene without nodes, a skin without joints, a camera of another type or without angle, a stride that is no multiple of 4 or above 252, an unknown type of data, an offset of 2^31 or more, an empty material or two buffers of different length are saved without an error, and what is saved can never be loaded. The bytes of an accessor are found at the same stride afterwards; not so for strides of 1, 2 and 3. Not so: a model that was loaded can be saved (a material with an empty name reads a member that was never set).", "quantifier": "all models, all files on disk, all folders and plain names, all image decoders, any loss of precision in the text, any conversion to float", "why_tests_cant": "Tests save and load one model and compare a few meshes.", "anchors": ["sumo-api/sumo/threedee/tiny_gltf/tiny_gltf.h:LoadFromString", "sumo-api/sumo/threedee/tiny_gltf/tiny_gltf.h:WriteGltfSceneToFile", "sumo-api/sumo/threedee/tiny_gltf/tiny_gltf.h:ParseMaterial", "sumo-api/sumo/threedee/tiny_gltf/tiny_gltf.h:SerializeParameterMap", "sumo-api/sumo/threedee/tiny_gltf/tiny_gltf.h:ParseJsonAsValue", "sumo-api/sumo/threedee/tiny_gltf/tiny_gltf.h:ValueToJson", "sumo-api/sumo/threedee/tiny_gltf/tiny_gltf.h:ParseBufferView", "sumo-api/sumo/threedee/gltf.pyx:load_ascii_from_file", "sumo-api/sumo/threedee/gltf_model.pyx:save_as_gltf"]}
{"id": "C98", "title": "The text of .gltf files: JSON with doubles of 15 digits", "statement": "The parser reads exactly the texts of RFC 8259 (a byte order mark may come first, what follows a null character is not looked at, the first of two equal keys counts, integers from -2^63 to 2^64-1 are kept as integers and others become the nearest double) and refuses every other text, and every number that would become infinite, with an error. What the serializer writes can be read if and only if all strings are UTF-8 and no double reaches 1.797693134862315e308; then all of it is read as it was, but for doubles, which become the double nearest to the nearest decimal number with 15 digits. Doubles that came from at most 15 digits are kept, floats are kept if they are converted to float again, the others change by at most 6e-15 of themselves, and a second time nothing changes. Not so: doubles are kept (0.1 + 0.2 becomes 0.3); every document that is written can be read (the largest double, a name in latin 1). A model of C97 is saved as two files on disk and loading them gives the model of C97; saving and loading that again keeps it. A model with a bound of an accessor that is too large or a name of a node that is not UTF-8 is saved without an error and can not be loaded.", "quantifier": "all texts, all JSON values that nlohmann::json can hold, all doubles and floats, all models, files, folders and plain names", "why_tests_cant": "Tests load a few files that other programs wrote and save small meshes; none looks at the last digits or at strings that are not ASCII.", "anchors": ["sumo-api/sumo/threedee/tiny_gltf/json.h:lexer", "sumo-api/sumo/threedee/tiny_gltf/json.h:scan_number", "sumo-api/sumo/threedee/tiny_gltf/json.h:scan_string", "sumo-api/sumo/threedee/tiny_gltf/json.h:parse_internal", "sumo-api/sumo/threedee/tiny_gltf/json.h:dump", "sumo-api/sumo/threedee/tiny_gltf/json.h:dump_float", "sumo-api/sumo/threedee/tiny_gltf/json.h:dump_escaped", "sumo-api/sumo/threedee/tiny_gltf/tiny_gltf.h:LoadASCIIFromFile", "sumo-api/sumo/threedee/tiny_gltf/tiny_gltf.h:WriteGltfFile"]}
{"id": "C99", "title": "Documents of other programs: what a glTF document means is what is loaded", "statement": "For every document that has the members of glTF 2.0 with values of the right kind (whole numbers may be written 3, 3.0 or 3e0; indices are below 2^31, sizes at most 2^53; defaults of samplers, primitives, nodes, textures, views and skins as in the specification of glTF; bytes of buffers in a data URI, beside the document or in the current folder; images in a data URI, a file or a buffer view) load gives the model that the document means, and a document means one model at most. A document is refused if it is not an object, one of the five sections is missing, a member of a section is not an object, an accessor, a buffer, a buffer view, a camera, a skin, a scene or the sampler of an animation lacks a value it needs, or an image has both or neither of a URI and a view. Whatever is loaded has component types from 5120 to 5130, known accessor types, strides that are multiples of 4 up to 252, targets 0, 34962 or 34963, images of at least one pixel and cameras of the two types. The copyright, the weights of nodes and the extras of views, buffers and images are lost. Not so: every valid document is loaded (one with only an asset, a scene without nodes, an accessor without a view, a buffer without a URI, an animation sampler without interpolation are refused; a channel without a node is left out); only valid documents are loaded (no asset, component type 5127, views and nodes that do not exist).", "quantifier": "all documents, models, files, folders, decoders of images", "why_tests_cant": "Tests load two or three files of one exporter; defaults, other kinds of numbers and incomplete files are never seen.", "anchors": ["sumo-api/sumo/threedee/tiny_gltf/tiny_gltf.h:LoadFromString", "sumo-api/sumo/threedee/tiny_gltf/tiny_gltf.h:ParseImage", "sumo-api/sumo/threedee/tiny_gltf/tiny_gltf.h:ParseBuffer", "sumo-api/sumo/threedee/tiny_gltf/tiny_gltf.h:ParseBufferView", "sumo-api/sumo/threedee/tiny_gltf/tiny_gltf.h:ParseAccessor", "sumo-api/sumo/threedee/tiny_gltf/tiny_gltf.h:ParsePrimitive", "sumo-api/sumo/threedee/tiny_gltf/tiny_gltf.h:ParseNode", "sumo-api/sumo/threedee/tiny_gltf/tiny_gltf.h:ParseMaterial", "sumo-api/sumo/threedee/tiny_gltf/tiny_gltf.h:ParseAnimation", "sumo-api/sumo/threedee/tiny_gltf/tiny_gltf.h:ParseSampler", "sumo-api/sumo/threedee/tiny_gltf/tiny_gltf.h:ParseSkin", "sumo-api/sumo/threedee/tiny_gltf/tiny_gltf.h:ParseCamera"]}
{"id": "C100", "title": "PLY files of other programs: text, lists, spacing", "statement": "PointCloud.load_ply, on a file whose header has lines of words with any spacing (blanks, tabs, carriage returns, empty lines, comments, obj_info) that declare elements and properties, single or lists, in text or in either byte order, where vertex has the 32 bit float properties x, y, z in this order: binary files give the point stored in each row of vertex, whatever lists and elements come before, between and after; text files give, for each row, the three numbers that strtof makes of the words of x, y and z, whatever white space separates the words, with or without an end of line at the end. Not so: a text file with fewer words than declared is reported (the result is memory that was never initialised); x, y, z of a whole number type are converted (the bits of the number are taken for a float, in text and in binary); nan and inf can be read from text; a word such as 1.5.2 is refused (it is read as two coordinates).", "quantifier": "all elements, properties, counts, rows, lists, spacings, words that are real numbers; strtof is any function", "why_tests_cant": "The tests read one binary file without lists that the program wrote itself.", "anchors": ["sumo-api/sumo/threedee/tinyply/tinyply.cpp:parse_header", "sumo-api/sumo/threedee/tinyply/tinyply.cpp:read_property_ascii", "sumo-api/sumo/threedee/tinyply/tinyply.cpp:skip_property_ascii", "sumo-api/sumo/threedee/tinyply/tinyply.cpp:skip_property_binary", "sumo-api/sumo/threedee/tinyply/tinyply.cpp:parse_data", "sumo-api/sumo/threedee/tinyply/tinyply.cpp:read", "sumo-api/sumo/threedee/point_cloud_ply_c.cpp:readPoints", "sumo-api/sumo/threedee/point_cloud.pyx:load_ply"]}
{"id": "C101", "title": "Meshes through .gltf, .bin and .png files", "statement": "Meshes are added to a new GltfModel one after the other with add_mesh, the model is saved with save_as_gltf in a folder that exists, and the .gltf file is loaded with load_from_gltf. Then primitive_meshes gives the same number of meshes in the same order, with indices, vertices, normals, texture coordinates and both textures bit by bit as they were, and the material as it was but for the numbers of its textures and for doubles, which are written with 15 digits; and only the .gltf file, the .bin file and the numbered .png files in the folder are written. This holds for meshes with at least one vertex and one normal, no infinite coordinate, a material that lists a texture exactly when the mesh has one and is not empty; in particular for every TexturedMesh as constructed with a color texture. The bounds of the positions in the file are the smallest and the largest coordinates if all are between -2^31 and 2^31; so are those of the normals, of the texture coordinates if there are any, and of the indices if there are any and all are below 2^31. A folder that does not exist gives ValueError. Not so: the bounds are right for larger coordinates (the minimum stays 2^31); two models can be saved in one folder under two names (the first then has the pictures of the second); a Mesh without texture, as constructed, can be loaded once saved (IOError), or a model without meshes.", "quantifier": "all lists of less than 2^29 meshes with at most 2^53 bytes in their arrays, all folders and names of plain characters, all file systems, all encoders and decoders of .png files that are inverse to each other on pictures of at most 2^24 columns and rows and 2^30 samples", "why_tests_cant": "The tests save and load two small models of few meshes; NaN, empty textures, shared folders, untextured meshes and large coordinates do not occur.", "anchors": ["sumo-api/sumo/threedee/gltf_model.pyx:add_mesh", "sumo-api/sumo/threedee/gltf_model.pyx:save_as_gltf", "sumo-api/sumo/threedee/gltf_model.pyx:load_from_gltf", "sumo-api/sumo/threedee/gltf_model.pyx:primitive_meshes", "sumo-api/sumo/threedee/GltfModel.cpp:addPrimitiveMesh", "sumo-api/sumo/threedee/GltfModel.cpp:addTexturedPrimitiveMesh", "sumo-api/sumo/threedee/GltfModel.cpp:completeAccessor", "sumo-api/sumo/threedee/GltfModel.cpp:extractTexturedPrimitiveMesh", "sumo-api/sumo/threedee/GltfModel.cpp:saveImages"]}
{"id": "C102", "title": "Pictures from .png files", "statement": "A .png file of any kind that the format knows (grey, color, palette, each with alpha or a transparent color; 1, 2, 4, 8 or 16 bits; interlaced or not) is loaded as the picture it shows, in 8 bits: with width, height and number of channels, palette colors looked up, grey of few bits scaled up to 255, and alpha 0 exactly for pixels of the transparent color. This holds whatever filter each row has, however the data is split in IDAT chunks, and whatever chunks that need not be known lie in between. Whatever the file is, a picture that is loaded has between 1 and 2^24 columns and rows, 1 to 4 channels, and exactly as many bytes as LoadImageData copies; and the file has the PNG signature and an IEND. A picture of three bytes per pixel that any writer of the format has written comes back unchanged, which is what C101 needs. Not so: a file is loaded or refused (a pixel beyond the palette takes its color from memory that was not written; colors of 4 bits make an assertion fail); the checksums are checked.", "quantifier": "all pictures with at most 2^24 columns and rows and 2^30 samples, all files of them, all sequences of bytes, all decompressors", "why_tests_cant": "The tests load few files of one program with one kind of picture; filters, palettes, small depths, 16 bits and damaged files do not occur.", "anchors": ["sumo-api/sumo/threedee/tiny_gltf/stb_image.h:stbi__parse_png_file", "sumo-api/sumo/threedee/tiny_gltf/stb_image.h:stbi__create_png_image_raw", "sumo-api/sumo/threedee/tiny_gltf/stb_image.h:stbi__create_png_image", "sumo-api/sumo/threedee/tiny_gltf/stb_image.h:stbi__compute_transparency", "sumo-api/sumo/threedee/tiny_gltf/stb_image.h:stbi__expand_png_palette", "sumo-api/sumo/threedee/tiny_gltf/stb_image.h:stbi__do_png", "sumo-api/sumo/threedee/tiny_gltf/tiny_gltf.h:LoadImageData"]}
{"id": "C103", "title": "The decompressor of pictures", "statement": "Data that any compressor of the zlib format has written, in stored blocks, blocks of the fixed Huffman codes and blocks with Huffman codes of their own, in any order, with any copies of earlier data, comes out of stb_image's decompressor unchanged, with or without the zlib header. Whatever the input, what comes out are bytes; so whatever the bytes of a .png file, a picture that is loaded from it has between 1 and 2^24 columns and rows, 1 to 4 channels and as many bytes as LoadImageData copies. Together with C102 there is a writer of .png files whose pictures are loaded unchanged, as C101 needs it, with nothing assumed. Not so: a damaged stream is refused (the distances 30 and 31, which do not exist, copy memory that was not written) or comes to an end (after twelve bytes, zeros can be written until memory runs out).", "quantifier": "all streams of blocks, all codes of at most 15 bits, all sequences of bytes, outputs below 2^30 bytes", "why_tests_cant": "The tests load few files that one program has compressed; stored blocks, overlapping copies at the limits and damaged streams do not occur.", "anchors": ["sumo-api/sumo/threedee/tiny_gltf/stb_image.h:stbi__parse_zlib", "sumo-api/sumo/threedee/tiny_gltf/stb_image.h:stbi__parse_huffman_block", "sumo-api/sumo/threedee/tiny_gltf/stb_image.h:stbi__parse_uncompressed_block", "sumo-api/sumo/threedee/tiny_gltf/stb_image.h:stbi__compute_huffman_codes", "sumo-api/sumo/threedee/tiny_gltf/stb_image.h:stbi__zbuild_huffman", "sumo-api/sumo/threedee/tiny_gltf/stb_image.h:stbi_zlib_decode_malloc_guesssize_headerflag"]}
