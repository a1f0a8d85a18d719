{"id": "C01", "title": "A rigid body motion is rigid at every time", "statement": "For every constructed RigidBodyMotion with a unit rotation axis, and every time t, the map x -> motion(x, t) preserves all distances and all signed volumes (its linear part is a rotation with determinant +1), and motion(x, 0) = x.", "quantifier": "every unit axis, angle in (0,pi), translation, origin, time and pair (or quadruple) of points", "why_tests_cant": "distance preservation is a universally quantified algebraic identity over a continuum of axes, angles and points", "anchors": ["xrd_simulator/motion.py:RigidBodyMotion.__call__", "xrd_simulator/motion.py:_RodriguezRotator"]}
{"id": "C02", "title": "Meaning of the motion: right-handed rotation by t*angle about the axis, then t*translation", "statement": "The origin point moves to origin + t*translation; points on the axis through the origin are only translated; the component of a point orthogonal to the axis turns right-handedly by exactly t*rotation_angle; rotate() composes additively in time.", "quantifier": "every motion with unit axis, every time and vector", "why_tests_cant": "the sense and the amount of rotation must be right for every axis; a finite set of axes cannot tell a transposed matrix from a correct one off those axes", "anchors": ["xrd_simulator/motion.py:RigidBodyMotion.__call__", "xrd_simulator/motion.py:RigidBodyMotion.rotate", "xrd_simulator/motion.py:_RodriguezRotator.get_rotation_matrix"]}
{"id": "C03", "title": "When inverse() really inverts", "statement": "motion.inverse() always constructs successfully and its rotate() undoes rotate() at every time; but motion.inverse()(motion(x, t), t) = x holds for a time t if and only if the rotation at t leaves t*translation fixed; for other motions the documented inverse leaves a constant residual, independent of x.", "quantifier": "every motion, time and point", "why_tests_cant": "an iff over all motions; the shipped tests use motions for which both sides agree to tolerance or only the rotation part", "anchors": ["xrd_simulator/motion.py:RigidBodyMotion.inverse"]}
{"id": "C04", "title": "Constructor guards of RigidBodyMotion", "statement": "Construction succeeds exactly when 0 < angle < pi and the axis length differs from 1 by at most 1e-8 + 1e-5; accepted motions whose axis is not exactly unit are not isometries, and the squared length of the rotated image of a vector deviates from the input by exactly a stated factor.", "quantifier": "every axis and angle", "why_tests_cant": "the acceptance set is a continuum with exact boundaries", "anchors": ["xrd_simulator/motion.py:RigidBodyMotion.__init__", "xrd_simulator/motion.py:_RodriguezRotator.__init__"]}
{"id": "C05", "title": "Batched motion equals per-point motion", "statement": "Calling a motion on an (N,3) array with scalar time or N times, or on (N,M,3) with N times, returns element-wise the same points as N (N*M) single-point calls, in the same order; the shape/time combinations that raise are exactly the documented mismatches plus scalar time with (N,M,3).", "quantifier": "every N, M, list of points, list of times", "why_tests_cant": "shape and pairing logic must hold for every batch size including 0 and 1", "anchors": ["xrd_simulator/motion.py:RigidBodyMotion.__call__", "xrd_simulator/motion.py:_RodriguezRotator.__call__"]}
{"id": "C06", "title": "translate() treats 2-D arrays as (3,N)", "statement": "translate(v, t) raises outside [0,1]; on a (3,) vector or (3,N) array it adds t*translation to every point; on the equally documented (N,3) array it does not: for N=3 it adds component i of the translation to the whole i-th point, for N=1 it yields a 3x3 array, otherwise it raises.", "quantifier": "every motion, array and time", "why_tests_cant": "quantifies over all shapes and values", "anchors": ["xrd_simulator/motion.py:RigidBodyMotion.translate"]}
{"id": "C07", "title": "Laue soundness", "statement": "Every (grain, plane, time, G) returned by the Laue solver called with the factors built from beam wave vector and motion has 0 <= time <= 1 and satisfies the Laue condition |k + R(time)G| = |k| (elastic scattering) with R(time) the motion's rotation.", "quantifier": "every wave vector, unit axis, angle in (0,pi), set of grains and scattering vectors", "why_tests_cant": "continuum of geometries; the trigonometric identity must be exact", "anchors": ["xrd_simulator/laue.py:_find_solutions_to_tangens_half_angle_equation", "xrd_simulator/polycrystal.py:Polycrystal._compute_peaks"]}
{"id": "C08", "title": "Laue completeness and its exact exception", "statement": "Every time in [0,1] at which a reflection satisfies the Laue condition is reported, except when the reflection also satisfies the Laue condition at a rotation of exactly pi (zero leading coefficient of the half-angle quadratic): then it is dropped although a genuine diffraction event exists. A tangential event (double root) is reported twice.", "quantifier": "every geometry, grain, plane and time", "why_tests_cant": "absence of missed events cannot be sampled; the exceptional set has measure zero", "anchors": ["xrd_simulator/laue.py:_find_solutions_to_tangens_half_angle_equation"]}
{"id": "C09", "title": "Structure of the Laue output", "statement": "At most two events are reported per (grain, plane); all indices are in range; the four output lists have equal length, the G reported for an event is the G_0 of its grain and plane; events are ordered first-root hits then second-root hits, each lexicographically by (grain, plane).", "quantifier": "every input table", "why_tests_cant": "holds for every number of grains and planes", "anchors": ["xrd_simulator/laue.py:_find_solutions_to_tangens_half_angle_equation"]}
{"id": "C10", "title": "Contents of every diffraction peak", "statement": "Each peak row returned by diffract carries: the element index and the phase index of that element; a Miller index of that phase; G0 = U B hkl of that element; G = rotate(G0, t); K_out = k + G; source = motion(centroid, t); structure factor |F|^2 of that hkl where it exceeds 1e-6 and no structure factor otherwise (1 if the phase has none).", "quantifier": "every polycrystal, beam, motion and every returned row", "why_tests_cant": "must hold for each row of tables of arbitrary size, with several phases interleaved", "anchors": ["xrd_simulator/polycrystal.py:Polycrystal._compute_peaks"]}
{"id": "C11", "title": "Bragg's law for reported peaks", "statement": "For every reported peak |K_out| = |k|, and the reported angle 2theta between incoming and scattered wave vector satisfies |G0| = 2|k| sin(theta), that is wavelength*|G0| = 4 pi sin(theta). The deprecated Bragg-angle helper returns half the scattering angle of every diffracting vector.", "quantifier": "every peak of every diffract call", "why_tests_cant": "identity over a continuum", "anchors": ["xrd_simulator/polycrystal.py:Polycrystal._compute_peaks", "xrd_simulator/polycrystal.py:Polycrystal.diffract"]}
{"id": "C12", "title": "Table integrity and completeness of diffract", "statement": "Peak tables have exactly 25 distinct named columns, the peak index column is 0..n-1 and every row's source point is strictly inside the beam. Conversely every element, plane and time in [0,1] satisfying the Laue condition with the element centre strictly inside the beam has a row, apart from the Laue solver's blind spot (C08).", "quantifier": "every polycrystal, beam and motion", "why_tests_cant": "all table sizes", "anchors": ["xrd_simulator/polycrystal.py:Polycrystal._compute_peaks"]}
{"id": "C13", "title": "When diffract raises although the inputs are valid", "statement": "With an explicit phase map and acceptable angle limits, diffract raises IndexError when the Laue solver finds exactly one event in the whole sample (even if the beam misses it) and returns a table in every other case. A polycrystal built with element_phase_map=None raises TypeError on every diffract, until saved and loaded. In physical terms (reflections of all elements that meet the Laue condition at some t in [0,1], leaving out those that also meet it half a turn away): no event gives an empty table, two or more events give a table, and a lone event raises IndexError unless the scattering vector only grazes the Ewald sphere.", "quantifier": "every polycrystal and event count", "why_tests_cant": "depends on a data-dependent count", "anchors": ["xrd_simulator/scattering_factors.py:_lorentz", "xrd_simulator/polycrystal.py:Polycrystal._instantiate_phase", "xrd_simulator/polycrystal.py:Polycrystal._compute_peaks"]}
{"id": "C14", "title": "transform preserves the material state", "statement": "After any sequence of transforms, sample-frame strain, orientation and mesh are unchanged, lab orientations stay orthonormal, the crystal-frame strain U^T eps U (hence the cached B matrices and G0 lengths) is unchanged, and the element volumes in the lab mesh are unchanged.", "quantifier": "every finite sequence of motions with unit axes and times", "why_tests_cant": "histories of unbounded length", "anchors": ["xrd_simulator/polycrystal.py:Polycrystal.transform"]}
{"id": "C15", "title": "Transform then diffract commutes with diffraction time", "statement": "Peaks of a sample moved by motion m to time s, at time t of the same motion, are the peaks of the unmoved sample at time s+t: same element, plane, diffraction vector and scattered wave vector, in both directions. The source points differ by exactly s*(R_t T - T), so they agree only if the rotation leaves the translation T alone.", "quantifier": "every motion, s, t, orientation and hkl", "why_tests_cant": "continuum of times", "anchors": ["xrd_simulator/polycrystal.py:Polycrystal.transform", "xrd_simulator/motion.py:RigidBodyMotion.rotate"]}
{"id": "C16", "title": "A peaks dictionary is not a snapshot", "statement": "The dictionary returned by diffract shares the polycrystal's live lab mesh: transforming the polycrystal afterwards changes the mesh seen through the old dictionary to the transformed one, and nothing else of it. The constructor does copy its mesh, so transforming a polycrystal never changes the caller's mesh or other polycrystals.", "quantifier": "every history of diffract / transform", "why_tests_cant": "aliasing across histories", "anchors": ["xrd_simulator/polycrystal.py:Polycrystal.diffract", "xrd_simulator/mesh.py:TetraMesh.update"]}
{"id": "C17", "title": "Bragg-angle limits given to diffract", "statement": "Without a detector, min and max Bragg angle are used as given and never checked; angles beyond 90 degrees fold back (max and pi-max select the same planes). With a detector the user's maximum is ignored and replaced by the detector's wrapping cone seen from the mean illuminated node (mesh centroid if none is lit), and diffract raises AssertionError exactly when not 0 <= min < cone (also for an undefined cone), leaving the polycrystal unchanged.", "quantifier": "every argument combination", "why_tests_cant": "all combinations of optional arguments and values", "anchors": ["xrd_simulator/polycrystal.py:Polycrystal._get_bragg_angle_bounds", "xrd_simulator/polycrystal.py:Polycrystal.diffract"]}
{"id": "C18", "title": "diffract is history independent", "statement": "The result of diffract depends only on its arguments and the current lab state; previous diffract calls with other beams, motions or bounds leave no trace in later results although they mutate the phases.", "quantifier": "every history of diffract calls", "why_tests_cant": "unbounded histories", "anchors": ["xrd_simulator/polycrystal.py:Polycrystal.diffract", "xrd_simulator/phase.py:Phase._setup_diffracting_planes"]}
{"id": "C19", "title": "Shape handling of the Polycrystal constructor", "statement": "A single 3x3 orientation or strain is applied to every element, an (N,3,3) stack is used element by element, anything else raises ValueError; several phases without a phase map raise ValueError; one phase without a map puts every element in phase 0. Each element's lattice matrix is that of its own phase strained by its own strain in its own crystal frame.", "quantifier": "every N and every stack", "why_tests_cant": "every N", "anchors": ["xrd_simulator/polycrystal.py:Polycrystal.__init__"]}
{"id": "C20", "title": "Strain <-> B-matrix round trip", "statement": "For every admissible strain, converting strain to B and back returns the same strain; G lengths follow the strain: B(eps)^-1 encodes metric C = (I+2eps).", "quantifier": "every upper-triangular B0 with positive diagonal and every strain with positive definite I+2eps", "why_tests_cant": "continuum; requires exact triangular-factor algebra", "anchors": ["xrd_simulator/utils.py:_b_to_epsilon", "xrd_simulator/utils.py:_epsilon_to_b"]}
{"id": "C21", "title": "Inadmissible strain handling", "statement": "A strain batch is converted to B matrices exactly when the deformation metric of every element is positive definite. Otherwise it raises: LinAlgError if no metric has a negative direction (one is singular); else the documented ValueError for batches of at least 3 elements, but IndexError for shorter batches, because building the message fails. Only the lower triangle of the strain is read. Converting a singular B matrix back to a strain raises LinAlgError.", "quantifier": "every batch", "why_tests_cant": "every batch size", "anchors": ["xrd_simulator/utils.py:_epsilon_to_b", "xrd_simulator/utils.py:_lab_strain_to_B_matrix"]}
{"id": "C22", "title": "Beam constructor normalisation and acceptance", "statement": "Every constructed Beam with positive wavelength has |wave_vector| = 2*pi/wavelength along the given propagation direction and a unit polarization vector along the given one. Given vertices the hull routine accepts, construction succeeds exactly for non-zero direction and polarization whose angle's cosine is at most 1e-8*wavelength/(2*pi) in absolute value.", "quantifier": "every direction, wavelength and polarization", "why_tests_cant": "continuum", "anchors": ["xrd_simulator/beam.py:Beam.__init__"]}
{"id": "C23", "title": "Beam containment", "statement": "contains() is true exactly strictly inside all bounding half-spaces; the inside is convex; the batched form agrees with the single-point form at every position; points on a bounding plane are outside. Because the half-space coefficients are rounded to six decimals, agreement with the exact hull of the vertices is guaranteed for points further from the boundary than 0.5e-6*(|x|+|y|+|z|+1). The rows of the beam's half-space table are distinct and in increasing lexicographic order.", "quantifier": "every beam and every list of points", "why_tests_cant": "convexity and batching quantify over all points", "anchors": ["xrd_simulator/beam.py:Beam._contains", "xrd_simulator/beam.py:Beam.set_beam_vertices"]}
{"id": "C24", "title": "Beam save/load round trip", "statement": "Reading back what save writes yields an identical beam (wave vector, wavelength, polarization, vertices, centroid, half-spaces), for every beam obtained by construction with a positive wavelength and any number of vertex updates. A negative wavelength is accepted at construction and such a beam comes back with its wave vector reversed. Reading the file with another convex-hull routine than the one it was written with (the joggled hull is not reproducible) still returns the identical beam.", "quantifier": "every constructed beam", "why_tests_cant": "must hold for all values", "anchors": ["xrd_simulator/beam.py:Beam.save", "xrd_simulator/beam.py:Beam.load"]}
{"id": "C25", "title": "Beam-element intersection seed point", "statement": "Whenever the beam/convex-body intersection goes on to intersect half-spaces, the interior point it passes on is strictly inside all half-spaces passed on, provided the body's centroid is deeper in the body than 100 times the six-decimal rounding effect; a point found by linear programming is at least 1e-8 inside whatever the solver returned. For microscopic bodies the claim is false: the rounded half-spaces may exclude the chosen point. The body is taken whole exactly when all its corners are strictly inside the beam. When constraints are tight at the LP point, the least-squares step moves 1e-5 into each of them if any step can, and the moved point is returned when the other constraints leave room; if the tight planes share a direction (one or two of them always do) the step raises LinAlgError.", "quantifier": "every pair of half-space systems", "why_tests_cant": "case analysis over all geometries", "anchors": ["xrd_simulator/beam.py:Beam._intersect", "xrd_simulator/beam.py:Beam._find_feasible_point"]}
{"id": "C26", "title": "Proximity intervals", "statement": "A sampled time at which a sphere is a candidate is covered by the returned intervals unless it is at least two samples into a run of candidates that ends exactly at the last but one sample; those times are not covered. Every interval contains a candidate sample; None is returned exactly when there is none.", "quantifier": "every mask of sample hits", "why_tests_cant": "all masks of all lengths", "anchors": ["xrd_simulator/beam.py:Beam._get_proximity_intervals"]}
{"id": "C27", "title": "Candidate spheres", "statement": "At every sampled time at which the motion's inverse really inverts, every sphere that reaches the beam (up to six-decimal rounding) is marked as candidate; at least three times from 0 to 1 are sampled. For motions that translate across their rotation axis a sphere sitting in the centre of the beam can be left unmarked, because the inverse motion does not invert; and the documented (3,n) array layout raises for every n other than 3. Between sampled times no translation component grows by as much as 3/4 of a radius and the rotation by 1.5 degrees; the documented half radius and one degree can be exceeded.  With n = 3 the documented layout is accepted but read by rows, as three other spheres.", "quantifier": "all beams, hull results, motions, sphere sets and sampled times", "why_tests_cant": "Tests sample a few motions without transverse translation; the claim quantifies over all motions, spheres and hulls.", "anchors": ["xrd_simulator/beam.py:Beam._get_candidate_spheres"]}
{"id": "C28", "title": "Detector plane intersection", "statement": "For orthogonal detector edges and a ray not parallel to the detector plane, the reported coordinates (zd, yd) are exactly those of the point where the forward ray meets the plane: corner0 + zd*zhat + yd*yhat lies on the ray, and every plane point ahead on the ray is reported with its own coordinates. A plane behind the source gives NaN, a parallel ray (also one inside the plane) or collinear corners (accepted by the constructor) never give a finite coordinate. Skew corners are accepted too, but their coordinates do not locate the hit point.", "quantifier": "every detector, source point and ray", "why_tests_cant": "continuum of geometries", "anchors": ["xrd_simulator/detector.py:Detector._get_intersection", "xrd_simulator/detector.py:Detector.__init__"]}
{"id": "C29", "title": "Detector containment", "statement": "contains(zd, yd) is true iff both are finite and 0<=zd<=zmax, 0<=yd<=ymax. Hence, for orthogonal edges, every row of a projected table belongs to a ray that crosses the sensitive rectangle going forward, at the recorded coordinates, and a peak whose ray misses the rectangle is never recorded. For skew corners a ray through a detector corner can be lost.", "quantifier": "every coordinate pair including non-finite", "why_tests_cant": "special values flow through every comparison", "anchors": ["xrd_simulator/detector.py:Detector.contains", "xrd_simulator/detector.py:Detector.peaks_detector_intersection"]}
{"id": "C30", "title": "Pixel grid", "statement": "Exactly one of n_pixels and pixel_size must be given (else ValueError). The pixel array has ceil(zmax/pz) x ceil(ymax/py) points, point (i,j) being corner0 + i*pz*zhat + j*py*yhat (pixel corners, not centres); requesting n_z x n_y pixels gives exactly that many in exact arithmetic, but in IEEE double precision some requests (49 rows over 512 length units) give one more.  A single number is used for both directions, a pair for z and y. With three distinct corners the constructor succeeds exactly when the given pixel sizes (or non-zero pixel counts) are positive and the kernel radius cap is not negative. Any other refusal than the one-of-two rule is a RuntimeError (zero counts are outside of the model). In IEEE double precision, for every length and every request of up to 2^50 rows (whose pixels are not subnormal) the array has the requested number of rows or one more, never fewer, and exactly the requested number for powers of two; with a given pixel size it has the exact number of rows or one fewer, the latter only when the missing row is thinner than a 2^-53 part of the detector.", "quantifier": "every detector and pixel index; every n", "why_tests_cant": "rounding of a division chain over all n and lengths", "anchors": ["xrd_simulator/detector.py:Detector._get_pixel_coordinates", "xrd_simulator/detector.py:Detector.__init__"]}
{"id": "C31", "title": "Frame binning", "statement": "For every number of frames n (values below 1 count as 1) a recorded peak with time t in [0,1] gets the frame f in 0..n-1 with f/n < t <= (f+1)/n (t=0 in frame 0); this frame is unique and monotone in t. In IEEE double precision (up to 2^40 frames) the edges of the bins ascend and are off by at most 2^-51, so the recorded frame is the exact one for every time farther than 2^-51 from the inner edges, and is monotone in t; a time just above an inner edge can be put into the frame before it (3 frames, t the double above 2/3).", "quantifier": "every n and t", "why_tests_cant": "boundary behaviour for all n", "anchors": ["xrd_simulator/detector.py:Detector.peaks_detector_intersection"]}
{"id": "C32", "title": "Intensity of projected peaks", "statement": "Projecting a table returned by diffract never fails, whatever the detector; for orthogonal detector edges the result holds, in the original order, exactly the rows whose ray hits the detector and whose product of the enabled factors (structure, polarization, Lorentz) is finite and positive; that product is the recorded intensity; the five new column names and all other dictionary entries are as documented.", "quantifier": "every table and every combination of factor flags", "why_tests_cant": "all tables, all flag combinations", "anchors": ["xrd_simulator/detector.py:Detector.peaks_detector_intersection"]}
{"id": "C33", "title": "Re-projecting a projected table", "statement": "Projecting an already projected table (e.g. passing the dictionary returned by render to a second detector) keeps a row iff the FIRST detector's coordinates fit into the second detector's rectangle, regardless of where the second detector is, and column lookups by name keep returning the first projection; a detector no ray reaches can so record every peak.", "quantifier": "every table", "why_tests_cant": "history-dependent", "anchors": ["xrd_simulator/detector.py:Detector.peaks_detector_intersection", "xrd_simulator/detector.py:Detector.render"]}
{"id": "C34", "title": "Wrapping cone", "statement": "The default maximum Bragg angle is half of the largest angle between the beam and the directions of the four detector corners; the whole sensitive area is within twice that angle whenever the largest corner angle is at most 90 degrees; not for back-scatter detectors, and not for rays starting at another point of the sample.", "quantifier": "every detector placement and detector point", "why_tests_cant": "a convexity argument over all points of the rectangle", "anchors": ["xrd_simulator/detector.py:Detector._get_wrapping_cone"]}
{"id": "C35", "title": "Projected bounding box", "statement": "The pixel box used for macro rendering lies inside of the pixel array and, if every vertex of the body projects forward, contains the pixel of every projected point of the body that lies on the detector in a complete pixel; a partial last row or column of the pixel array is never part of a box, so it is never rendered by the macro method.  Vertices whose ray does not meet the detector plane do not influence the box; if no vertex projects there is no box.", "quantifier": "every set of vertices and every detector", "why_tests_cant": "all integer boundary cases", "anchors": ["xrd_simulator/detector.py:Detector._get_projected_bounding_box", "xrd_simulator/detector.py:Detector._detector_coordinate_to_pixel_index"]}
{"id": "C36", "title": "render front door", "statement": "render returns max(1, number_of_frames) frames of the detector pixel shape for the supported methods and raises ValueError for unknown methods.", "quantifier": "every method string and frame count", "why_tests_cant": "every string", "anchors": ["xrd_simulator/detector.py:Detector.render"]}
{"id": "C37", "title": "Automatic method partition", "statement": "With method auto each projected peak is rendered by exactly one of the three kernels whenever the two size limits are ordered; if the ordering fails a peak may be rendered twice.", "quantifier": "every peak table and pixel size", "why_tests_cant": "depends on the ordering of two derived thresholds for all sizes", "anchors": ["xrd_simulator/detector.py:Detector.render"]}
{"id": "C38", "title": "Gaussian rendering independent of batching", "statement": "The rendered image does not depend on available memory / batch size.", "quantifier": "every peak table and every positive batch size", "why_tests_cant": "all partitions", "anchors": ["xrd_simulator/detector.py:Detector._render_gauss_peaks"]}
{"id": "C39", "title": "Gaussian rendering bookkeeping", "statement": "Each peak contributes only to its own frame, contributions are non-negative, add up over peaks (order-independent) and sum to at most intensity*volume per peak.", "quantifier": "every peak table", "why_tests_cant": "all tables and permutations", "anchors": ["xrd_simulator/detector.py:Detector._render_gauss_peaks"]}
{"id": "C40", "title": "Gaussian cut-off is absolute", "statement": "Deposits below 1e-6 in absolute intensity units are discarded after scaling, so rendering is not linear in intensity and sufficiently weak peaks vanish completely.", "quantifier": "every peak", "why_tests_cant": "quantifies over intensities", "anchors": ["xrd_simulator/detector.py:Detector._render_gauss_peaks"]}
{"id": "C41", "title": "Airy memory batching terminates and loses nothing", "statement": "For every available memory figure, including 0, the Airy renderer's batch loop terminates, uses non-empty batches, and processes every peak exactly once in order; a batch of more than one peak fits the memory figure and zero memory means one peak per batch.", "quantifier": "every memory figure and peak count", "why_tests_cant": "termination for every input", "anchors": ["xrd_simulator/detector.py:Detector._render_airy_peaks"]}
{"id": "C42", "title": "Nano image and the machine's free memory", "statement": "When every Airy disc has a first dark ring of at most 2 pixels, or all discs have the same radius, the image rendered with method 'nano' is the same on two machines that differ in free memory and in the tie-breaking order of the sort. Without that condition the claim is false: there is a peak table with two discs of different size whose 'nano' image differs between a machine with little and one with ample free memory, because the kernel radius (hence the normalisation window) is shared by all peaks of a memory-sized batch.", "quantifier": "every detector, projected peak table, frame count, amount of free memory and permuting sort", "why_tests_cant": "a test runs with one amount of free memory; the statement compares all of them", "anchors": ["xrd_simulator/detector.py:Detector._render_airy_peaks", "xrd_simulator/detector.py:Detector._airy_kernel_batch"]}
{"id": "C43", "title": "Kernel cropping by energy", "statement": "The crop radius search terminates and, for every kernel with non-negative entries, returns the smallest radius (at least 1) whose centred window encloses the threshold energy, falling back to the full half width; the cropped kernel carries exactly the enclosed energy. A kernel of a single entry is left as it is.", "quantifier": "every non-negative kernel and every threshold", "why_tests_cant": "binary search correctness for all sizes", "anchors": ["xrd_simulator/detector.py:Detector._airy_kernel_batch"]}
{"id": "C44", "title": "Sampled Airy kernels are centred only for integer radii", "statement": "The Airy profile is sampled on a grid starting at minus the radius; for an integer radius the kernel is symmetric about its central pixel, otherwise the whole kernel is shifted by the distance from the radius to the next integer along both axes, so the peak is not rendered at the pixel it was projected to. The sampled radius is at most 128 pixels; below that it covers four first zeros, the Gaussian tail there is below half the threshold, and half that radius would not have been enough.", "quantifier": "every radius, first zero and kernel entry", "why_tests_cant": "the offset varies continuously with the crystal size and incidence angle", "anchors": ["xrd_simulator/detector.py:Detector._airy_kernel_batch"]}
{"id": "C45", "title": "Sub-pixel deposit conserves intensity and position", "statement": "Bilinear splitting of a deposit onto 4 neighbouring pixels has weights in [0,1] that sum to one and preserve the centroid exactly; at the detector border intensity can only be lost, and a whole kernel whose footprint lies inside the detector deposits exactly its total.", "quantifier": "every fractional position", "why_tests_cant": "continuum", "anchors": ["xrd_simulator/detector.py:Detector._deposit_kernels_batch"]}
{"id": "C46", "title": "Point-spread function", "statement": "The Gaussian PSF kernel is positive, symmetric and normalised to one for every non-zero sigma, its radius is the smallest one reaching the threshold subject to the documented cap, and convolution preserves the total of frames whose support is at least the radius away from the border and never increases the total of non-negative frames. For sigma zero the kernel, and every rendered macro or nano frame that receives a peak, is NaN. The kernel is the Gaussian exp(-(x^2+y^2)/(2 sigma^2)) of the offset from its centre up to one positive factor, and every frame of finite pixels is blurred with exactly that normalised, cut-off Gaussian, with zeros outside the image. Every detector that can be constructed has such a kernel, with a radius between 0 and the cap.", "quantifier": "every sigma, kernel size and image", "why_tests_cant": "all sizes", "anchors": ["xrd_simulator/detector.py:Detector._generate_gaussian_kernel", "xrd_simulator/detector.py:Detector._conv2d_gaussian_kernel"]}
{"id": "C47", "title": "Macro normalisation", "statement": "With the macro method, the total of a frame whose lit element parts project away from the detector border equals the sum of intensity times lit volume times pixel area, whereas the micro method deposits at most intensity times volume: the two normalisations differ by the pixel area. A lit part projecting on more than one pixel but missed by every thickness ray yields NaN on its whole footprint.", "quantifier": "every peak table, detector, beam and element geometry", "why_tests_cant": "cross-method consistency over all geometries and pixel sizes", "anchors": ["xrd_simulator/detector.py:Detector._render_projected_volumes", "xrd_simulator/detector.py:Detector._project_convex_hull"]}
{"id": "C48", "title": "Clip length of a ray through a convex body", "statement": "The clip length returned for a ray crossing a convex body equals the length of the ray's intersection with the body (lengths below 1e-12 are reported as zero), a ray missing a body none of whose faces is parallel to it gets zero, and the result is non-negative and independent of where on the line the ray starts; faces parallel to the ray are ignored, so a ray outside such a face may get a positive length.  For a hull given by unit-normal equations n.x + d <= 0 the clipped body is exactly the set of points satisfying all equations, so the length is the length of the ray inside the hull.", "quantifier": "every convex body and ray", "why_tests_cant": "convex geometry over a continuum", "anchors": ["xrd_simulator/utils.py:_clip_line_with_convex_polyhedron"]}
{"id": "C49", "title": "Incident angle and corner order", "statement": "The recorded incident angle is the angle in degrees between the ray and the reversed normal -(zhat x yhat). Exchanging detector corners 1 and 2, which describes the same physical rectangle, exchanges zd and yd and replaces the angle by its supplement, so a ray at normal incidence is reported with 0 or 180 degrees depending on the corner order.", "quantifier": "all detectors, rays and tables", "why_tests_cant": "a statement about all rays and both orientations of every detector; tests use one fixed corner order", "anchors": ["xrd_simulator/detector.py:Detector._get_intersection", "xrd_simulator/detector.py:Detector.peaks_detector_intersection"]}
{"id": "C50", "title": "Face normals", "statement": "For every mesh that can be built, each element's four face normals are listed in face order, have unit length, are orthogonal to their face and point away from the element's fourth vertex, so that the element lies behind all its faces.", "quantifier": "every node array and connectivity table", "why_tests_cant": "continuum", "anchors": ["xrd_simulator/mesh.py:TetraMesh._compute_mesh_normals", "xrd_simulator/mesh.py:TetraMesh._compute_mesh_faces"]}
{"id": "C51", "title": "Bounding spheres", "statement": "The ball computed for each element contains the whole element. Mesh construction succeeds exactly when the connectivity is in range and no element is flat (a flat element raises LinAlgError). The documented minimality is false: some elements get a ball more than 1.3 times larger in radius than necessary, centred outside of the element, and that centre is what diffract uses as the source position. The radius is never larger than that of the circumscribed ball (plus 0.01%) nor smaller than half the longest edge (plus 0.01%), and when two corners span a diameter of a ball around the element that ball is the one found: the smallest possible up to 0.01%.", "quantifier": "every tetrahedron", "why_tests_cant": "case analysis over all tetrahedra shapes", "anchors": ["xrd_simulator/mesh.py:TetraMesh._compute_mesh_spheres", "xrd_simulator/utils.py:_circumsphere_of_segments", "xrd_simulator/utils.py:_circumsphere_of_triangles", "xrd_simulator/utils.py:_circumsphere_of_tetrahedrons"]}
{"id": "C52", "title": "Element volumes and centroids", "statement": "Element volumes are invariant under every rigid motion. The volume used for intensities is the absolute volume, independent of node order and positive exactly for non-flat elements; the mesh attribute evolumes is the signed volume, negative for left-handed node orders. The mesh attribute centroid is the plain mean of the element centroids (each the mean of its four corners), so it is not the centre of mass when elements differ in volume.", "quantifier": "every tetrahedron, node order and rigid motion", "why_tests_cant": "continuum", "anchors": ["xrd_simulator/utils.py:_compute_tetrahedra_volumes", "xrd_simulator/mesh.py:TetraMesh._compute_mesh_volumes"]}
{"id": "C53", "title": "Mesh history", "statement": "After any number of translations followed by any number of updates and rotations, every public attribute of the mesh equals what a mesh freshly built from the current coordinates would have, and the coordinates are a rigid image of the original ones. A translate after an update loses the update: the coordinates become the original ones plus the translation while normals and centroids stay moved. Translate adds the vector to every node, rotate turns every node right-handedly about an axis through the lab origin and raises unless the angle is in (0, pi), update moves every node by the given motion at the given time; none of them touches the connectivity.", "quantifier": "every mesh and every operation sequence", "why_tests_cant": "unbounded histories", "anchors": ["xrd_simulator/mesh.py:TetraMesh.translate", "xrd_simulator/mesh.py:TetraMesh.update", "xrd_simulator/mesh.py:TetraMesh.rotate"]}
{"id": "C54", "title": "Faces, centroids and attribute tables", "statement": "Each element has exactly the four faces obtained by leaving out one of its nodes in turn, and every per-element attribute has one entry per element in the same order. The centroid of an element is the balance point of its four corners, that of the mesh the balance point of the element centroids.", "quantifier": "every mesh", "why_tests_cant": "must hold for every connectivity table of any size", "anchors": ["xrd_simulator/mesh.py:TetraMesh._compute_mesh_faces", "xrd_simulator/mesh.py:TetraMesh._expand_mesh_data"]}
{"id": "C55", "title": "s3dxrd template geometry", "statement": "The detector built by the s3dxrd template from (distance, pixel sizes, pixel counts, beam centre) is hit by the direct beam at exactly the configured beam-centre position; a missing parameter raises ValueError. A call succeeds only if the rotation axis is an array and every other documented value is a number.", "quantifier": "every complete or incomplete parameter set", "why_tests_cant": "all subsets of keys, all values", "anchors": ["xrd_simulator/templates.py:s3dxrd"]}
{"id": "C56", "title": "Powder template mesh", "statement": "A powder sample has exactly the requested number of elements, every one of them the same tetrahedron with its corners on the sphere of the given radius around the origin; all have the same positive volume, the one phase and the drawn orientations, and a strain-free request always succeeds. (Finding: the mesh's own volume attribute alternates in sign and n-1 of the 4n nodes belong to no element.)", "quantifier": "every number of crystals, radius and orientation draw", "why_tests_cant": "all n, all radii", "anchors": ["xrd_simulator/templates.py:get_uniform_powder_sample"]}
{"id": "C57", "title": "ODF sampling bins", "statement": "With n the whole part of pi/separation the sampler uses n x 2n x 4n orientation bins whose volumes are positive and sum to pi^2 within 1e-6, so its internal assertion never fires and the uniform density is always accepted; a separation above pi fails with ZeroDivisionError. Neighbouring bins are at most pi/n < 2 separation apart (finding: bins adjacent in the first angle are never closer than the requested 'maximum' separation).", "quantifier": "every separation in (0, pi] (up to 1e7 steps) and beyond pi", "why_tests_cant": "all resolutions, real trigonometric sums over arbitrarily many bins", "anchors": ["xrd_simulator/templates.py:_sample_ODF"]}
{"id": "C58", "title": "ODF samples are valid orientations from populated bins", "statement": "Sampling returns one proper rotation matrix per point; it succeeds exactly when at every point the density is non-negative on the bins and has total weight within 5% of one; each drawn orientation lies within half a step of a bin where the density at that point is positive; and the angle ranges used reach every orientation.", "quantifier": "every density, point set, resolution and random draw", "why_tests_cant": "all draws of the random generator, all densities", "anchors": ["xrd_simulator/templates.py:_sample_ODF", "xrd_simulator/utils.py:_alpha_to_quarternion"]}
{"id": "C59", "title": "Scattering factor ranges and meaning", "statement": "The polarization factor lies in [0,1]; the Lorentz factor is at least 1 or infinite and never negative, is infinite exactly when the scattering angle is below one degree or the scattered direction is within half a degree of the rotation axis azimuth, equals 1/(sin 2theta |sin eta|) otherwise, and is NaN only in exact backscatter. A call with exactly one reflection returns a scalar instead of a vector.", "quantifier": "every geometry", "why_tests_cant": "continuum including singular sets", "anchors": ["xrd_simulator/scattering_factors.py:_lorentz", "xrd_simulator/scattering_factors.py:_polarization"]}
{"id": "C60", "title": "Scherrer broadening", "statement": "Scherrer width is positive, decreases with grain size and increases with Bragg angle for angles in (0, pi). It obeys Scherrer's formula: an element with the volume of a ball of diameter d microns gets a width of 0.9 wavelength / (10000 d cos(theta)).", "quantifier": "every volume and angle", "why_tests_cant": "monotonicity over a continuum", "anchors": ["xrd_simulator/scattering_factors.py:_scherrer"]}
{"id": "C61", "title": "Structure factors", "statement": "Each reflection of a batch gets exactly the textbook sum for that reflection alone (batching and the isotropic/anisotropic split do not matter), one pair per reflection, KeyError for an unknown atom type; F(-h) is the conjugate of F(h) without dispersion; symmetry-equivalent reflections have equal intensity; systematically absent reflections are exactly zero; the resolution parameter is half the reciprocal vector length of any lattice with the cell's lengths and angles. (With dispersion |F(-h)| and |F(h)| can differ.)", "quantifier": "every atom list, space group operation list, unit cell and reflection list", "why_tests_cant": "all crystals and reflections", "anchors": ["xrd_simulator/structure_factors.py:compute_structure_factors_batch", "xrd_simulator/structure_factors.py:_sintl_batch", "xrd_simulator/structure_factors.py:_form_factors_batch", "xrd_simulator/structure_factors.py:_uij_to_betaij"]}
{"id": "C62", "title": "Device selection", "statement": "configure_device understands None, auto, gpu, cuda and cpu up to capitals and surrounding blanks and raises ValueError on anything else without changing anything; after any sequence of calls the selected device, which is also torch's default, is decided by the last understood call and by whether cuda was present then (cpu otherwise, and before any call).  A verbose call reports the device it selected, and warns exactly when a requested GPU is missing; a quiet call prints nothing. The blanks ignored are tab, line feed, vertical tab, form feed, carriage return, the separators 28-31 and the space.", "quantifier": "every call sequence, every argument string, every availability", "why_tests_cant": "unbounded histories and all strings", "anchors": ["xrd_simulator/cuda.py:configure_device", "xrd_simulator/cuda.py:get_selected_device"]}
{"id": "C63", "title": "Save/load file naming", "statement": "For every object kind and path, save writes exactly path with the kind's extension (added once) and load of that same name returns the saved object (a polycrystal: with its phase map as a tensor), whatever else is saved before, and after under other names; load of a name without the extension raises ValueError, of a missing file FileNotFoundError; the four kinds never touch each other's files. A polycrystal with a tensor phase map is identical after a save and load; otherwise only the representation of the map changes.", "quantifier": "every path string, object, file-system state and history of saves", "why_tests_cant": "all strings and all histories", "anchors": ["xrd_simulator/beam.py:Beam.save", "xrd_simulator/beam.py:Beam.load", "xrd_simulator/motion.py:RigidBodyMotion.save", "xrd_simulator/motion.py:RigidBodyMotion.load", "xrd_simulator/detector.py:Detector.save", "xrd_simulator/detector.py:Detector.load", "xrd_simulator/polycrystal.py:Polycrystal.save", "xrd_simulator/polycrystal.py:Polycrystal.load"]}
{"id": "C64", "title": "Companion xdmf path of Polycrystal.save", "statement": "With the mesh export on, exactly two files are written: the object file and a companion mesh file with the sample mesh and the exported fields. The companion is beside the object file if the path has no extension or a dotless stem; otherwise its name is truncated at the first dot, so two objects whose paths share everything up to the first dot overwrite each other's companion (a flaw), though both objects still load.", "quantifier": "every path string, polycrystal and file-system state", "why_tests_cant": "all strings", "anchors": ["xrd_simulator/polycrystal.py:Polycrystal.save", "xrd_simulator/mesh.py:TetraMesh.save"]}
{"id": "C65", "title": "Strain vector/tensor round trip", "statement": "Packing a symmetric strain tensor to a 6-vector and back is the identity in both directions.", "quantifier": "every symmetric tensor and every 6-vector", "why_tests_cant": "all values", "anchors": ["xrd_simulator/utils.py:_strain_as_tensor", "xrd_simulator/utils.py:_strain_as_vector"]}
{"id": "C66", "title": "Diffractogram totals", "statement": "Entry k of the azimuthally integrated diffractogram is the sum of exactly the pixels whose radius is nearest to k*binsize (ties go inwards, everything beyond the last ring is collected there); the returned total is the image total minus the content of the last ring, which is always dropped, so total intensity is not conserved.", "quantifier": "every image, centre and bin size", "why_tests_cant": "all images", "anchors": ["xrd_simulator/utils.py:_diffractogram"]}
{"id": "C67", "title": "Verbose blocks", "statement": "Messages of the xfab loggers are off after import; they are on inside a verbose block, off after it even when the body raised (the exception is passed on), other loggers are never touched, a non-verbose block changes nothing, and leaving an inner verbose block silences the rest of the enclosing verbose block.  The loggers concerned are exactly those of xfab's tools, structure, atomlib, detector, checks, sg, sglib and symmetry modules.", "quantifier": "every program built from messages, exceptions and nested blocks", "why_tests_cant": "all nestings and exception points", "anchors": ["xrd_simulator/utils.py:_verbose_manager", "xrd_simulator/utils.py:_set_xfab_logging"]}
{"id": "C68", "title": "Interval membership", "statement": "Interval membership of a value is true iff the value lies in one of the closed intervals (bounds included, empty when the bounds are swapped), false for NaN, and does not depend on the order of the list.", "quantifier": "every value and list of intervals", "why_tests_cant": "all lists", "anchors": ["xrd_simulator/utils.py:_contained_by_intervals"]}
{"id": "C69", "title": "Mesh export changes the caller's dictionary", "statement": "Saving a mesh with element data wraps every value of the caller's own dictionary in another list, so a second save with the same dictionary raises ValueError and writes nothing unless the mesh has exactly one element (a flaw).", "quantifier": "every mesh, path and dictionary", "why_tests_cant": "all dictionaries and call histories", "anchors": ["xrd_simulator/mesh.py:TetraMesh.save"]}
{"id": "C70", "title": "Phase map values and length are not validated", "statement": "A phase map entry that matches no phase number (negative, fractional, too large), or a missing entry, is accepted silently: that element gets a zero lattice matrix and never diffracts. A map longer than the number of elements raises at construction when the surplus entry names a phase.", "quantifier": "all meshes, phases, phase maps, beams, motions", "why_tests_cant": "ranges over all maps and all later diffract calls", "anchors": ["xrd_simulator/polycrystal.py:Polycrystal._instantiate_eB", "xrd_simulator/polycrystal.py:Polycrystal._instantiate_phase"]}
{"id": "C71", "title": "Sample-driven macro projection at the border", "statement": "When the macro method samples random points of a lit element part, a point projecting onto a complete pixel is counted in exactly that pixel; a part sticking out of the detector makes rendering raise IndexError (past the far edge) or counts the point in an unrelated pixel (before the near edge).", "quantifier": "every detector, lit part, ray direction and sample point", "why_tests_cant": "continuum of geometries and random samples", "anchors": ["xrd_simulator/detector.py:Detector._project_convex_hull"]}
{"id": "C72", "title": "Size and shape of the Airy disc of a diffraction spot", "statement": "With method='nano', a projected spot that is rendered on its own is given a square kernel of odd size that is, up to one positive factor, the Airy pattern (2 J1(x)/x)^2 around the middle of the kernel; its first dark ring has the radius 1.1861 * scherrer_fwhm * |detector corner 0| / cos(incidence angle) / z-pixel size in pixels, provided that radius is at least half a pixel and at least gaussian_sigma and 4 times it is a whole number, or it is at most 2, or at least 32 (otherwise the sampling grid is not aligned with the pixels). The distance that enters the radius is |detector corner 0| / D times the flight path of the ray, D being the distance of the source from the detector plane: for a source at the origin it is never less than the flight path and equal to it only when corner 0 is the point of the detector plane closest to the origin. When no disc reaches half a pixel the image depends on positions, frames and strengths of the spots alone, not on their widths, incidence angles, Bessel function, memory or sorting. On a detector whose normal points along the rays (incidence angles above 90 degrees) no Airy disc is ever drawn: size broadening has no effect at all.  Spots of different size that are rendered together get kernels of one common odd size, each of them its own Airy pattern around the middle, set to zero outside of a square, under the same condition on the largest radius.", "quantifier": "every built detector with a positive z-pixel size, every projected spot with a finite width and incidence angle, every Bessel function, ray, source point, and pair of nano renderings", "why_tests_cant": "The claim is about a continuous family of widths, angles, detector poses and source positions; a test fixes one detector, whose corner and distance hide the difference between |corner 0|/cos and the flight path.", "anchors": ["xrd_simulator/detector.py:_airy_kernel_batch", "xrd_simulator/detector.py:_estimate_airy_kernel_memory", "xrd_simulator/detector.py:_render_airy_peaks"]}
{"id": "C73", "title": "Macro frames give a partly visible grain its full weight", "statement": "With the macro method and no blur, every lit element part whose projection reaches the detector contributes its whole intensity times lit volume times pixel area to the frame, even when most of it projects beside the detector: the part that misses is not lost but spread over the pixels that remain.", "quantifier": "every peak table, detector, beam and element geometry", "why_tests_cant": "all positions of the projection relative to the detector border", "anchors": ["xrd_simulator/detector.py:Detector._render_projected_volumes", "xrd_simulator/detector.py:Detector._project_convex_hull", "xrd_simulator/detector.py:Detector._get_projected_bounding_box"]}
{"id": "C74", "title": "Energy of a nano image", "statement": "When the sum of a frame rendered with method 'nano' is a number, it is non-negative and at most the summed strength (intensity factor times volume) of the peaks of that frame; when in addition every peak of the frame lies further from the border than its largest possible kernel, the sum is at least (1 - kernel_threshold) times that strength. The sum always is a number when no Airy disc has a first dark ring above 2 pixels.", "quantifier": "every detector with non-zero point spread sigma, every peak table with non-negative volumes, every frame count, Bessel routine, sorting routine and amount of free memory", "why_tests_cant": "holds for all peak positions, disc sizes and batchings; a test samples a few", "anchors": ["xrd_simulator/detector.py:Detector._render_airy_peaks", "xrd_simulator/detector.py:Detector._airy_kernel_batch", "xrd_simulator/detector.py:Detector._deposit_kernels_batch"]}
{"id": "C75", "title": "Circumscribed sphere centre", "statement": "The centroid returned for a set of points is equidistant from all of them, lies in their affine span and is the only such point, whichever correct linear solver is used.", "quantifier": "every set of points for which the linear system is solved", "why_tests_cant": "all point sets", "anchors": ["xrd_simulator/utils.py:_get_circumscribed_sphere_centroid"]}
{"id": "C76", "title": "Cylinder sample from an ODF", "statement": "The cylinder surface handed to the mesh generator is closed (every edge in exactly two triangles, at least eight sides) with its points on the requested cylinder; every element of the resulting sample has a rotation as orientation, the strain function's value at its own centroid, and the one phase; a strain-free request with an accepted density and a usable mesh succeeds. (Finding: the caps are wound inward although the comment says outward.) Rim points are spaced about 4.2 times the radius of a sphere holding one crystal's share of the volume.", "quantifier": "every cylinder size, number of crystals, mesh returned by the generator, density and strain function", "why_tests_cant": "all n, all meshes, all densities", "anchors": ["xrd_simulator/templates.py:polycrystal_from_odf"]}
{"id": "C77", "title": "Interrupted saves", "statement": "A save is not atomic: stopped right after the file was opened, the previous contents are lost and loading raises EOFError; from the moment the pickle is complete, loading gives the new object even if the mesh export never happens; before the first write nothing has changed.", "quantifier": "every object, path and interruption point", "why_tests_cant": "crash points are a history property", "anchors": ["xrd_simulator/polycrystal.py:Polycrystal.save", "xrd_simulator/beam.py:Beam.save", "xrd_simulator/motion.py:RigidBodyMotion.save", "xrd_simulator/detector.py:Detector.save"]}
{"id": "C78", "title": "Exported element fields", "statement": "The exported file shows at each element the components of that element's own sample-frame strain under the right names, its own orientation's angles in degrees and its phase index; moving, diffracting or reloading the polycrystal does not change what is exported.  The exported misorientation of an element turned by an angle of at most 180 degrees, about any axis, away from the mean orientation is that angle in degrees.", "quantifier": "every polycrystal, element and history", "why_tests_cant": "all samples and histories", "anchors": ["xrd_simulator/polycrystal.py:Polycrystal.save", "xrd_simulator/utils.py:_get_misorientations"]}
{"id": "C79", "title": "Macro pictures are thickness profiles", "statement": "In a macro frame whose lit element parts each cover more than four pixels and have no face along the ray, every pixel is the blurred sum over the frame's peaks of intensity times lit volume times pixel area, spread over the pixels of the part's footprint in proportion to the thickness of the part along the scattered ray through the pixel's corner nearest detector corner 0 (thicknesses up to 1e-12 count as zero); with the kernel capped at one pixel the picture is exactly that.", "quantifier": "every peak table, detector, beam, element geometry and pixel", "why_tests_cant": "convex geometry over a continuum, all frames and pixels", "anchors": ["xrd_simulator/detector.py:Detector._render_projected_volumes", "xrd_simulator/detector.py:Detector._project_convex_hull", "xrd_simulator/utils.py:_clip_line_with_convex_polyhedron"]}
{"id": "C80", "title": "Meshes from a level set", "statement": "generate_mesh_from_levelset(level_set, R, c) evaluates the level set only on a grid of n^3 points over the cube [-R,R]^3, n being the largest whole number up to 4R/c but at least 20: two level sets that agree there give the same outcome. If the level set is continuous and marching cubes keeps its promises, every surface vertex given to the mesher is in that cube and closer than c to a true zero of the level set, and all nodes of the mesh lie in the cube; they need not lie within the documented bounding radius, and the documented bound c for element radii does not follow from the volume bound the mesher is given. A level set without sign change on the grid raises ValueError - including a body wider than the grid spacing around the origin -, as do a failing mesher and an empty surface or mesh; c = 0 raises ZeroDivisionError; no other exception arises that the level set, marching cubes or an element did not cause.", "quantifier": "every level set, radius, circumradius, marching-cubes routine and tetrahedral mesher", "why_tests_cant": "all level sets and all resolutions; external meshers can only be exercised on examples", "anchors": ["xrd_simulator/mesh.py:TetraMesh.generate_mesh_from_levelset"]}
{"id": "C81", "title": "Which objects share memory with the caller's arrays", "statement": "A mesh is isolated from the coordinate array it was built from, whatever the caller later writes to its arrays and whatever operations are applied to the mesh, in any order: the mesh is the one the operations alone produce, and the caller's arrays hold only what the caller wrote. A motion whose translation and origin, and a detector whose corners, were given as lists or in another number format are isolated as well. Given as float64 arrays they are shared: the motion always moves points with the present contents of the translation and origin arrays, and the detector's corners follow their arrays while its axes, normal, extent and pixel positions do not, which can leave the detector in a state no constructor call produces. Writing to the array given as rotation axis does not change how the motion moves points but changes (or breaks) the result of inverse(). Building an object never changes the caller's arrays.", "quantifier": "every argument form, every later sequence of writes by the caller and every sequence of mesh operations", "why_tests_cant": "all interleavings of writes and calls, all mixtures of argument types", "anchors": ["xrd_simulator/utils.py:ensure_torch", "xrd_simulator/utils.py:ensure_numpy", "xrd_simulator/motion.py:RigidBodyMotion.__init__", "xrd_simulator/motion.py:RigidBodyMotion.inverse", "xrd_simulator/detector.py:Detector.__init__", "xrd_simulator/mesh.py:TetraMesh._build_tetramesh", "xrd_simulator/mesh.py:TetraMesh.translate"]}
{"id": "C82", "title": "Random points drawn from a convex hull", "statement": "Drawing n points from a convex hull returns n points, all inside the hull. With the hull split into the pieces over its surface triangles (apex: the mean of the vertices), the piece over triangle i is chosen exactly when the uniform random number times the total volume falls between the summed volumes of the pieces before i and those up to i, that is with probability the piece's share of the volume, and the point is then the mean of the piece's four corners with the drawn weights. Every point of every piece that is not flat can be drawn. A hull without volume raises ValueError.", "quantifier": "every vertex list, every triangulation of the surface, every sequence of random draws, every number of samples", "why_tests_cant": "tests compare one histogram of one hull for one seed with a tolerance", "anchors": ["xrd_simulator/utils.py:_sample_convex_hull_3d"]}
{"id": "C83", "title": "The deprecated ray helpers agree with the methods that replaced them", "statement": "The deprecated ray/detector helper returns the point at which the ray meets the detector plane going forward, and None exactly when there is none, except that a ray whose normal component is below 1e-10 is reported as parallel even if it hits the detector. The deprecated world-to-pixel helper gives for that point the detector coordinates of the ray divided by the pixel sizes, or None exactly when they lie outside of the pixel array. On a detector of whole pixels this agrees with the hit test used by rendering except on the two far edges (on the detector, but no pixel); with a partial last pixel a ray that misses the detector can get a pixel. The deprecated path length equals the length of the ray inside the hull (0 below 1e-12, and 0 when no hull can be built). The deprecated sine of the Bragg angle is the sine of the Bragg angle whenever one exists.", "quantifier": "every detector, ray, hull and scattering vector", "why_tests_cant": "agreement of two implementations for all real inputs, including measure-zero edges", "anchors": ["xrd_simulator/detector.py:Detector._ray_detector_intersection", "xrd_simulator/detector.py:Detector._world_to_pixel_coords", "xrd_simulator/detector.py:Detector._compute_pixel_path_length", "xrd_simulator/laue.py:_get_sin_theta_and_norm_G"]}
{"id": "C84", "title": "From sample to picture: a micro image is exactly the sum of the spots of all reflections of the sample", "statement": "For every sample, beam, rigid body motion and rectangular detector for which polycrystal.diffract and then detector.render in mode micro succeed, the image is determined by physics alone: there is a finite, duplicate-free list of recorded reflections -- plane j of element e meets the Laue condition at time t while the element's centre is strictly inside the beam, its scattered ray starting there meets the detector in the right place, t lies in the time bin of the frame, and the enabled correction factors multiply to a finite positive number -- such that every pixel of every frame is the sum of the Gaussian spots of these reflections (each with total intensity x element volume, centred at its hit), reflections whose scattering vector merely touches the Ewald sphere being counted twice. Hence every non-zero pixel lies within the truncation radius of a real reflection of that frame, and every recorded reflection contributes its full spot.", "quantifier": "all samples, reachable beams and polycrystals, unit-axis motions, plane ranges, rectangular detectors, correction flags, frame counts, pixels", "why_tests_cant": "It is a composition of the whole pipeline over every sample geometry and every pixel; a test compares a few simulated pictures with themselves or with stored references.", "anchors": ["xrd_simulator/polycrystal.py:Polycrystal.diffract", "xrd_simulator/polycrystal.py:_diffract", "xrd_simulator/laue.py:find_solutions_to_tangens_half_angle_equation", "xrd_simulator/detector.py:Detector.render", "xrd_simulator/detector.py:Detector._render_gauss_peaks"]}
{"id": "C85", "title": "Verbose output only reports: it never changes a picture, and its figures are right", "statement": "Detector.render with verbose off prints nothing; with verbose on it returns the same frames and table, or the same exception, for every table below 10^18 rows (whose numbers fit the 55 character message limit that _print_progress asserts). The mode is the argument, else the dictionary's entry, else on. The bars of a successful call: one per batch (micro, nano) or per peak (macro), each names its batch/peak number and the total (nano: the batch's size), at strictly growing numbers of finished peaks, ending at exactly 100 % of the rendered peaks; a bar shows the whole fortieths of the fraction and the percentage rounded to one decimal, between 0 and 100. Auto mode runs one bar per class of peaks. A warning about dropped peaks appears exactly when some peak reaches the detector but has an unusable intensity; its total is the number of reached minus recorded peaks and equals the sum of its infinite, non-positive and NaN counts. The line about frames_to_render is printed exactly in verbose mode for values below 1.  The line about a limited Airy window: 'macro' and 'micro' never print it; a successful 'nano' call (and the 'nano' part of 'auto') prints it for exactly the batches that want a window of more than 128 pixels, just before the bar of the batch and with the wanted radius: four times the first zero (in pixels) of the broadest disc of the batch, at least 8, doubled until the point spread falls below half the threshold or 128 is exceeded, and no longer (for rows with a finite width and a ray not parallel to the detector).", "quantifier": "all peak tables (below 10^18 rows for the verbose side), detectors, environments (memory, sort order, external solvers), methods, limits, frame counts, verbose arguments and dictionary entries", "why_tests_cant": "Progress and warnings depend on every batching of every table; that reporting never interferes (for example through the assertion on the message length or a changed mask) must hold for all of them.", "anchors": ["xrd_simulator/utils.py:_print_progress", "xrd_simulator/detector.py:Detector.render", "xrd_simulator/detector.py:Detector.peaks_detector_intersection", "xrd_simulator/detector.py:Detector._render_gauss_peaks", "xrd_simulator/detector.py:Detector._render_airy_peaks", "xrd_simulator/detector.py:Detector._render_projected_volumes"]}
{"id": "C86", "title": "Memory figures are consistent, failures read as zero, and the report lists the largest tensors", "statement": "return_device_memory reports the configured backend; its figures are gigabytes of 1024^3 bytes (system total and available memory, or the GPU's total and total minus what torch reserved), and free lies between 0 and available. A failing query gives zeros, except that the call raises when CUDA is configured and reported available but the current device cannot be queried; with a figure of zero rendering still works (50000 Gaussians per batch, one Airy disc at a time). print_memory_report returns the same figures, lists exactly the largest admitted tensors, largest first, as many as a positive limit allows (all of them otherwise), numbered from 1 with sizes in units of 1024^2 bytes, and shows the GPU block exactly when the GPU is configured and included. Its line 'CPU tensors: ... total' is the memory of all CPU tensors only without a limit; with the default limit of five it counts the listed ones only (proved counterexample).", "quantifier": "all machines (configured device, psutil and CUDA answers including failures), all collections of live objects, flags and limits", "why_tests_cant": "The figures depend on the machine and on every live object of the process; failures of the queries cannot be provoked on one test machine.", "anchors": ["xrd_simulator/utils.py:return_device_memory", "xrd_simulator/utils.py:print_memory_report", "xrd_simulator/cuda.py:get_selected_device"]}
{"id": "C87", "title": "Polycrystals that share Phase objects do not disturb each other; a failing CIF file leaves a phase half updated", "statement": "Polycrystals keep the caller's Phase objects, and diffract writes into them. Nevertheless, whatever was called before on any polycrystal (successful or not, with whatever file contents), a diffract call gives the result it would have given after this polycrystal's own transforms alone; unit cell, space group and CIF path of a phase never change, and structure factors set by hand for a phase without CIF stay. If every phase's file is readable (first block with at least one atom, all atom types known, known space group, six cell parameters; exactly then, independently of the reflections) the call equals the call on unshared phases: afterwards each phase holds the reflections of the call and one structure factor per reflection, the textbook sum over the first CIF block, and the structure_factors column of a peak is |F|^2 (above 1e-6) of its own reflection, or 1 for a phase without CIF. If a file fails, that exception is raised; the phases before it are fully set up, the failing one has the new reflections but the old structure factors (so their numbers can differ: proved counterexample), all other phases are untouched. A file without blocks is an IndexError, later blocks do not matter.", "quantifier": "all heaps of Phase objects, sets of polycrystals referring to them, call histories with changing file contents, beams, motions, Bragg limits", "why_tests_cant": "Interference shows only for particular interleavings of calls on objects that share phases, and for files that fail between calls; a test runs one such history.", "anchors": ["xrd_simulator/phase.py:Phase._setup_diffracting_planes", "xrd_simulator/polycrystal.py:Polycrystal.diffract", "xrd_simulator/structure_factors.py:compute_structure_factors_batch", "xrd_simulator/utils.py:_cif_open"]}
{"id": "C88", "title": "A scan taken in n steps shows the frames of one scan with n frames", "statement": "Diffracting once with a motion and rendering n frames, or dividing angle and translation by n and then n times diffracting, rendering a single frame and transforming the sample to time 1, gives the same pictures: with method 'micro' every pixel of frame k of the one scan equals the pixel of step k's picture. This needs a translation along the rotation axis (the axis passes through the fixed origin of rotation), no reflection at exactly the angle where frame k begins (k > 0), and no reflection of the frame that also occurs at exactly 180 degrees after the start of the scan or of the step. Both exceptions are real: a reflection exactly between two frames is shown once by the scan, in the earlier frame, but by both of the steps; a reflection that also occurs at 180 degrees is never recorded by the scan in any frame, but is found by a step for which the 180 degree angle is another one.", "quantifier": "all reachable polycrystals, beams, unit axes, angles, translations along the axis, origins, built rectangular detectors, frame numbers n and k < n, Bragg limits given by the caller", "why_tests_cant": "The agreement must hold for every sample, geometry and number of frames and fails only for reflections at exact angles that random tests do not hit.", "anchors": ["xrd_simulator/polycrystal.py:Polycrystal.diffract", "xrd_simulator/polycrystal.py:Polycrystal.transform", "xrd_simulator/detector.py:Detector.render", "xrd_simulator/motion.py:RigidBodyMotion.__call__"]}
{"id": "C89", "title": "Only the relative geometry matters: the same experiment set up elsewhere gives the same data", "statement": "Set the whole experiment up elsewhere in the laboratory: turn everything by one rotation about the lab origin and shift it by one vector - element positions and orientations of the sample, beam direction, polarization and lit region, motion axis, translation and rotation origin, detector corners. Then diffract raises the same exception or returns the same table row by row: times, indices, structure factors, Lorentz and polarization factors, volumes, 2theta, Scherrer widths and peak numbers are equal, the scattering vectors and outgoing wave vectors are turned along, the source points are moved along; this holds with given Bragg-angle limits and with limits taken from the detector, and the sample afterwards is again the moved copy. The moved detector projects the same hits to the same panel coordinates, frames and intensities, and render gives the same 'micro' picture pixel for pixel; the 'nano' picture is the same if the first detector corner is as far from the lab origin as before. Otherwise it is not: every Airy disc is scaled by the ratio of the distances of that corner from the lab origin. The moved parts are what the constructors return for moved arguments (mesh vertices, orientations, lab strains A e A^T, motion, detector corners, beam direction and polarization), accepted or refused as before, and what transform makes of a sample.", "quantifier": "every proper rotation and shift, sample, phase list, beam, motion, Bragg-angle limits or detector, detector arguments, frame count; every row and pixel; every combination of moved arguments of the constructors", "why_tests_cant": "A test compares a handful of positions of one set-up; a term that silently refers to the lab origin or to a lab axis (as the Airy radius does) only shows for the positions it happens to try.", "anchors": ["xrd_simulator/polycrystal.py:Polycrystal.diffract", "xrd_simulator/polycrystal.py:Polycrystal._compute_peaks", "xrd_simulator/polycrystal.py:Polycrystal.transform", "xrd_simulator/detector.py:Detector.__init__", "xrd_simulator/detector.py:Detector.render", "xrd_simulator/detector.py:Detector.peaks_detector_intersection", "xrd_simulator/detector.py:Detector._airy_kernel_batch", "xrd_simulator/motion.py:RigidBodyMotion", "xrd_simulator/laue.py"]}
{"id": "C90", "title": "Two samples in the same beam scatter independently: tables join, pictures add", "statement": "Take two polycrystals with the same phases and the polycrystal that holds the elements of the first followed by those of the second (for instance built from the concatenated vertices, elements, orientations, strains and phase numbers). Diffract all three with the same beam, motion and Bragg-angle limits (no detector argument). Whenever both single calls return a table, the joint call returns one, and its rows are exactly the rows of the two tables in some order, with every column unchanged except peak_index and, for the rows of the second sample, grain_index, which grows by the number of elements of the first. The 'micro' picture of the joint table is the pixel-wise sum of the two pictures, on any detector and for any number of frames. The samples stay joined through transform and diffract. The converse fails: two crystals with one reflection each, for which diffract raises IndexError, give a table together.", "quantifier": "all pairs of reachable polycrystals with equal phase lists and complete phase maps, all beams, motions, angle limits, detectors, frame counts and memory environments", "why_tests_cant": "no finite set of samples shows that elements never interfere in the shared solver batches, gathers and scatters", "anchors": ["xrd_simulator/polycrystal.py:Polycrystal.__init__", "xrd_simulator/polycrystal.py:Polycrystal.diffract", "xrd_simulator/polycrystal.py:Polycrystal._compute_peaks", "xrd_simulator/polycrystal.py:Polycrystal._instantiate_eB", "xrd_simulator/detector.py:Detector.render"]}
{"id": "C91", "title": "Numbering is arbitrary: reordering vertices, elements or phases changes no reflection and no picture", "statement": "Write the same sample down in another order: vertices, elements (with their orientations, strains and phase numbers) and phases permuted, the element and phase maps adjusted. The constructors accept the reordered arguments whenever they accept the original ones, and the result is the same sample with new numbers, also after any transform or diffract. diffract, with given Bragg-angle limits or with limits from a detector, raises the same exception or returns the same rows in some order, with every column equal except grain_index, phase_number (replaced by the new numbers) and peak_index; and render gives the same 'micro' picture pixel for pixel.", "quantifier": "all reachable samples with an explicit phase map of one number per element, all permutations of vertices, elements and phases, all beams, motions, limits or detectors, frame counts, pixels", "why_tests_cant": "the code loops over phases, gathers by element index and batches; a test permutes one small sample, an indexing slip shows only for particular permutations and phase maps", "anchors": ["xrd_simulator/polycrystal.py:Polycrystal.__init__", "xrd_simulator/polycrystal.py:Polycrystal._instantiate_eB", "xrd_simulator/polycrystal.py:Polycrystal._compute_peaks", "xrd_simulator/polycrystal.py:Polycrystal.diffract", "xrd_simulator/polycrystal.py:Polycrystal._get_bragg_angle_bounds", "xrd_simulator/detector.py:Detector.render", "xrd_simulator/mesh.py:TetraMesh"]}
{"id": "C92", "title": "A scan run backwards finds the same reflections, at mirrored times and in frames of reverse order", "statement": "Let a RigidBodyMotion rotate by w about a through o and translate by T, and let q be the sample after transform(motion, 1). Diffracting q during the motion that undoes the first one (axis -a, the same angle, translation -T, origin o + T) reports exactly the reflections of the original call: each row of the first table has one counterpart in the second with the time 1 - t instead of t, the scattering vector before the motion turned to the end of the motion, and every other column (element, phase, Miller indices, structure factor, G, K_out, source point, Lorentz and polarization factor, volume, 2theta, Scherrer width) identical; the calls also raise alike. Rendered with method 'micro' in n frames, frame k of the first picture is pixel for pixel frame n-1-k of the second. Exceptions, stated exactly: a reflection exactly on the edge between frames k and k+1 is shown in k on the way there but in the mirror of k+1 on the way back; a plane that would also reflect half a turn after the start of one of the motions is lost by that call (C08). RigidBodyMotion.inverse() keeps the origin and is not this motion unless the translation is along the axis (C03).", "quantifier": "all reachable polycrystals and beams, all motions (any axis, angle in (0, pi), translation and origin), Bragg limits, detectors, numbers of frames, frames and pixels", "why_tests_cant": "Needs an exact correspondence of two sets of reflections for every crystal, geometry and motion, and exact knowledge of the exceptions, which have measure zero and never show in random tests.", "anchors": ["xrd_simulator/motion.py:RigidBodyMotion.__call__", "xrd_simulator/motion.py:RigidBodyMotion.rotate", "xrd_simulator/polycrystal.py:Polycrystal.transform", "xrd_simulator/polycrystal.py:Polycrystal.diffract", "xrd_simulator/laue.py:find_solutions_to_tangens_half_angle_equation", "xrd_simulator/scattering_factors.py:_lorentz", "xrd_simulator/detector.py:Detector.render", "xrd_simulator/detector.py:Detector.peaks_detector_intersection"]}
{"id": "C93", "title": "Only scattering vectors matter: other cells and symmetry-equivalent orientations of an unstrained crystal give the same data; a strained crystal does not", "statement": "Two samples whose elements have the same volumes, the same centres and, element by element, the same set of (scattering vector, |F|^2) pairs - whatever unit cells, Miller indices, orientations and strains describe them - get the same diffraction tables: the rows correspond one to one and agree in every column except phase_number, h, k, l and peak_index; the 'micro' pictures are identical; this remains so after moving both samples with transform. In particular, if the orientation of every element of an unstrained sample is multiplied on the right by a symmetry operation of its lattice (a matrix that permutes the listed planes and keeps |F|^2), the turned sample can be built, diffract returns when it did for the original, and the two samples are the same in that sense. With strain this fails: for every non-zero laboratory shear strain, a cubic crystal and the same crystal turned by a quarter turn about a cube axis have different scattering vectors, because the deformation gradient is taken as the Cholesky factor of 2*eps + I in crystal axes, which depends on the choice of those axes; the result of a strained simulation therefore depends on which of the equivalent orientations the user writes down.", "quantifier": "all samples (any number of elements and phases, planes and structure factors), all beams, motions (any unit axis, angle in (0, pi)), Bragg limits, detectors and frames; all symmetry operations, one per element; all shear strains of magnitude below 1/2", "why_tests_cant": "It is a statement about all pairs of descriptions of the same crystal; a test compares one pair on a few planes, and the small strain effect hides inside the tolerances.", "anchors": ["xrd_simulator/polycrystal.py:Polycrystal.diffract", "xrd_simulator/polycrystal.py:_compute_peaks", "xrd_simulator/polycrystal.py:Polycrystal._instantiate_eB", "xrd_simulator/laue.py:_get_G", "xrd_simulator/utils.py:_epsilon_to_b", "xrd_simulator/utils.py:_lab_strain_to_B_matrix", "xrd_simulator/phase.py:Phase._setup_diffracting_planes", "xrd_simulator/detector.py:Detector.render"]}
{"id": "C94", "title": "Unit of length: multiplying every length by s leaves the diffraction unchanged", "statement": "Multiply every length of a set-up by s > 0: sample vertices, beam region, translation and origin of the sample motion, detector corners and pixel sizes. The enlarged sample, motion and detector are accepted or refused by the constructors as before. diffract then raises the same exception, or returns the same rows in the same order with Source_x/y/z multiplied by s, volumes by s^3, scherrer_fwhm divided by s and every other column (Miller indices, times, scattering vectors, Lorentz and polarization factors, 2theta, structure factors, indices) equal; this includes the Bragg limits derived from a detector. The enlarged detector records the same reflections, at zd and yd multiplied by s, in the same frames with the same intensity factors. The 'micro' picture has the same shape and is s^3 times as bright except for what the fixed 1e-6 cut-off of single deposits removes: every pixel differs from s^3 times the old one by at most max(1, s^3) 1e-6 for each peak recorded in that frame, and is never less for s >= 1, never more for s <= 1. After transform or diffract the two samples are alike again. The 'nano' method has no such law: the radius of its Airy discs in pixels is divided by s.", "quantifier": "all s > 0, all reachable samples (any mesh, phases, orientations, strains), beams, motions, Bragg limits, detectors, frames and free-memory figures", "why_tests_cant": "It relates two runs for every set-up and every real factor; a fixed example cannot see an absolute length hidden in a comparison that its numbers do not reach.", "anchors": ["xrd_simulator/polycrystal.py:Polycrystal.diffract", "xrd_simulator/polycrystal.py:_compute_peaks", "xrd_simulator/polycrystal.py:Polycrystal._get_bragg_angle_bounds", "xrd_simulator/scattering_factors.py:_scherrer", "xrd_simulator/mesh.py:TetraMesh._compute_mesh_spheres", "xrd_simulator/utils.py:_circumsphere_of_tetrahedrons", "xrd_simulator/detector.py:Detector._get_intersection", "xrd_simulator/detector.py:Detector._get_wrapping_cone", "xrd_simulator/detector.py:Detector.render", "xrd_simulator/motion.py:RigidBodyMotion.__call__"]}
{"id": "C95", "title": "The beam's illuminated region only selects: narrowing it drops rows and light, nothing else", "statement": "Let two beams have the same wave vector, wavelength and polarization (as after set_beam_vertices) and differ only in the illuminated region, and let diffract be called with explicit Bragg limits. The two calls raise the same exceptions and leave the sample in the same state. If the second region lies within the first, its table consists of exactly those rows of the first table whose source point is strictly inside the second region, in the same order and with the same entries apart from the renumbered peak_index. With the 'micro' method no pixel of the narrower beam's picture is brighter, and if every row's source lies in exactly one of two narrower beams the picture is the pixel-wise sum of their two pictures. Cutting a beam by a plane does not quite split the table: rows whose source lies exactly on the plane are in neither half, since containment is strict.", "quantifier": "all samples, beams, regions, cutting planes, motions, Bragg limits, detectors, frame counts", "why_tests_cant": "Tests compare a few beams; the statement quantifies over all pairs of regions and all tables, including which exact rows vanish and in which order the others remain.", "anchors": ["xrd_simulator/beam.py:set_beam_vertices", "xrd_simulator/beam.py:_contains", "xrd_simulator/polycrystal.py:diffract", "xrd_simulator/detector.py:render"]}
{"id": "C96", "title": "Moving, cropping or enlarging a detector within its plane by whole pixels moves the picture and changes nothing else", "statement": "Let two rectangular detectors lie in the same plane with parallel edges, the same pixel size, point-spread sigma and correction switches, the second with its corner 0 at a pixel corner (n, k) of the first one's grid (any integers, any panel sizes). Given the same peak table, the reflections that both record on the common part of their panels are the same, in the same order, with rows equal in every column except zd and yd, which differ by n and k pixels. With the 'micro' method pixel (i, j) of the second picture and (i+n, j+k) of the first differ exactly by the light of spots centred on one panel and not on the other; so pixels farther than one spot radius from all edges of both panels are equal, and a part of a panel never shows more light than the panel (it loses the tails of spots centred just outside). This needs n and k even or no spot exactly halfway between pixels: halfway positions are rounded to the nearest even pixel index, so an odd displacement draws such a spot on other pixels.", "quantifier": "all pairs of detectors on one pixel grid, all samples, beams, motions, peak tables, frame counts and pixels", "why_tests_cant": "Tests use a handful of detectors; the statement ranges over all offsets, panel sizes, tables and pixels, and its exception concerns exact halfway positions that no random test hits.", "anchors": ["xrd_simulator/detector.py:__init__", "xrd_simulator/detector.py:_get_intersection", "xrd_simulator/detector.py:contains", "xrd_simulator/detector.py:_render_gauss_peaks", "xrd_simulator/detector.py:render"]}
{"id": "C97", "title": "A picture is made from a fixed set of table columns; all other columns are passengers", "statement": "Render two dictionaries returned by diffract (or edited by the user) on the same detector, with any method (nano, micro, macro, auto), any limits, any number of frames. If the mesh, the motion and the beam's half-spaces are the same and corresponding rows agree in grain_index, diffraction_times, K_out, Source, volumes, scherrer_fwhm and in the factor columns the detector has switched on (structure, polarization, Lorentz), then both calls raise the same exception or return identical pictures, and the recorded rows agree in those columns and in the five added ones. So phase numbers, Miller indices, G vectors, 2theta, peak indices, the factor columns of switched-off corrections and the beam's wave vector, wavelength and polarization never influence a picture.", "quantifier": "all pairs of 25-column tables that agree in these columns, all detectors, all methods and limits, all frame counts, all free-memory figures and external routines", "why_tests_cant": "Columns are read by position in a dozen places; a test shows that one column is unused by one method on one table, not that no column outside the list is ever read for any table, batch split or method.", "anchors": ["xrd_simulator/detector.py: Detector.render, peaks_detector_intersection, _render_gauss_peaks, _render_airy_peaks, _render_projected_volumes"]}
{"id": "C98", "title": "How the beam is described does not matter; polarization acts on one column only", "statement": "Multiplying the propagation direction and the polarization vector given to Beam by positive numbers gives the identical beam or the identical failure; reversing the polarization vector reverses the stored one and changes nothing else. A convex-hull routine that lists the same planes (to six decimals) in another order or repeatedly gives the identical beam. Two beams that differ only in polarization make diffract raise the same exceptions, change the sample in the same way and return tables that agree in every column except polarization_factors; for opposite polarizations the rows are identical. Hence a detector with the polarization correction switched off shows the same picture for every polarization, and every detector shows the same picture for opposite ones, with any method.", "quantifier": "all vertices, directions, wavelengths, polarizations, positive factors; all samples, motions, limits and detectors; all hull routines; all rendering methods", "why_tests_cant": "The claims compare two calls over a continuum of vectors and over all orders in which an external hull routine may list its planes.", "anchors": ["xrd_simulator/beam.py: Beam.__init__, set_beam_vertices", "xrd_simulator/polycrystal.py: Polycrystal.diffract, _compute_peaks", "xrd_simulator/scattering_factors.py: polarization", "xrd_simulator/detector.py: Detector.render, peaks_detector_intersection"]}
{"id": "C99", "title": "Friedel pairs: half a turn later the opposite reflections appear, mirrored across the plane perpendicular to the axis", "statement": "Let the rotation axis be perpendicular to the beam, and let the sample be turned by half a turn (or any odd number of half turns, in any number of transform calls about that axis, with any translations) before a second identical scan. Every peak of the first table with Miller indices h has a mate in the second table as soon as -h is among the planes the phase uses there and the element centre is in the beam at that moment: the same element, phase, time, volume, 2theta, Lorentz factor and Scherrer width, Miller indices -h with their own structure factor, and scattering vector and scattered wave vector mirrored in the plane perpendicular to the axis; the polarization factor is the same too if the polarization is parallel or perpendicular to the axis. Conversely every peak of the second table has such a mate in the first. If the axis is not perpendicular to the beam this fails: two rows of the two tables with opposite Miller indices, the same element and the same time can exist only if the axis is perpendicular to the beam or to that scattering vector.", "quantifier": "all samples, phases, strains and orientations, all beams, all scans about an axis perpendicular to the beam, all sequences of transforms about it that add up to an odd number of half turns, all Bragg limits", "why_tests_cant": "it relates two whole tables over all samples and times, including the limits where the Lorentz factor is infinite and the solver's blind spot; a test compares one pair of peaks", "anchors": ["xrd_simulator/polycrystal.py: diffract, transform", "xrd_simulator/laue.py: _find_solutions_to_tangens_half_angle_equation", "xrd_simulator/scattering_factors.py: _lorentz, _polarization, _scherrer"]}
{"id": "C100", "title": "When a 'nano' picture can be made", "statement": "For a fresh peak table and a constructed detector, rendering with method 'nano' either returns an image or raises RuntimeError, nothing else. It returns an image on every machine when every disc is at most two or at least 32 pixels in radius or has a radius that is a multiple of a quarter pixel, and when all discs have the same radius; a machine that reports no free memory always returns an image (all for discs with finite width whose ray is not parallel to the detector). Without such a condition the claim is false: a disc of radius 17/8 pixels is sampled on an even number of pixels and cannot be stacked with a disc narrower than half a pixel, so the same table gives an image on a machine with no free memory and RuntimeError on one with 1 GB.", "quantifier": "every fresh table, constructed detector, sorting routine, Bessel routine, amount of memory and frame count", "why_tests_cant": "success depends on the combination of disc sizes that share a memory batch, hence on the machine", "anchors": ["xrd_simulator/detector.py:Detector._render_airy_peaks", "xrd_simulator/detector.py:Detector._airy_kernel_batch"]}
{"id": "C101", "title": "Nano pictures of small or equal discs add up", "statement": "When every visible disc is at most two pixels in radius, or all visible discs have the same radius, a 'nano' picture depends only on which spots the table holds: rendering a table whose rows are those of two other tables (in any order, with grains, phases and peaks numbered anew) succeeds whenever the projection does, so do the two parts, and the picture is the pixelwise sum of the two pictures, on machines with any amounts of memory and any sorting routines. In particular the nano picture of two samples put side by side is the sum of the pictures of each, and renumbering the grains of a sample does not change it. Discs of a peak with positive volume that does not back-scatter exactly always have the width this needs. With mixed disc sizes the claim is false: two tables that can each be rendered can have a union whose rendering raises RuntimeError.", "quantifier": "every pair of fresh tables, every detector, memory, sorting routine, Bessel routine, frame count; every pair of reachable samples", "why_tests_cant": "the kernels of a batch are resized to the largest of the batch, and batches depend on memory and order: additivity can only be seen over all tables and machines", "anchors": ["xrd_simulator/detector.py:Detector._render_airy_peaks", "xrd_simulator/detector.py:Detector._airy_kernel_batch", "xrd_simulator/polycrystal.py:Polycrystal.diffract"]}
{"id": "C102", "title": "Samples consist of genuine tetrahedra: volumes, strengths and disc sizes are never degenerate", "statement": "However a mesh is translated, rotated and updated with motions accepted by RigidBodyMotion, and however the polycrystal made from it is transformed, diffracted, saved and loaded, no element degenerates: the four corners of every element stay in general position in the laboratory and in the sample frame, and the volume stored for each element is the positive Euclidean volume it had at construction. An accepted motion changes no volume by more than one part in ten thousand at any time (exactly by the factor 1 + (1-cos(angle t))^2 |axis|^2 (|axis|^2 - 1)). Hence every row of a peak table has a positive volume, every visible reflection has a positive scattering strength and, unless it is scattered straight back, a diffraction disc of finite size; so a nano picture of a sample without straight back-scattering can always be made on a machine that reports no free memory, and on every machine when all discs are at most two pixels in radius.", "quantifier": "every mesh, every sequence of mesh and polycrystal operations, every beam, motion, detector and table row", "why_tests_cant": "degeneracy would need one particular sequence of motions; tests sample only a few", "anchors": ["xrd_simulator/mesh.py:TetraMesh.update", "xrd_simulator/mesh.py:TetraMesh.translate", "xrd_simulator/mesh.py:TetraMesh.rotate", "xrd_simulator/polycrystal.py:Polycrystal", "xrd_simulator/motion.py:_RodriguezRotator.get_rotation_matrix", "xrd_simulator/utils.py:_compute_tetrahedra_volumes"]}
{"id": "C103", "title": "Brightness is proportional to the factors a picture is made from (exactly for nano and macro, up to the cut-off for micro)", "statement": "Take two peak tables of the same scene that agree in every column except one factor column (structure_factors, polarization_factors or lorentz_factors) that is switched on in the detector and whose entries are c > 0 times as large in the second table. Then Detector.render with method 'nano' or 'macro' either raises the same exception for both, or returns for the second table exactly c times the first image at every pixel (non-finite pixels included), and the two returned dictionaries hold corresponding rows whose factor and intensity_factors columns are in the ratio c and whose other columns are equal. The same holds for method 'auto' when no row falls in its middle (micro) size class. For 'nano' the same proportionality holds for the volumes column; a 'macro' image does not depend on the recorded volumes at all. A 'micro' image is not exactly proportional, but each of its pixels differs from c times the old value by at most the number of peaks of that frame times max(1,c) times 1e-6.", "quantifier": "all detectors, all pairs of tables as described, every c > 0, all frame counts, limits and external routines; every pixel", "why_tests_cant": "It relates two runs on arbitrary tables, detectors and factors; a test compares a few pairs of pictures up to rounding.", "anchors": ["xrd_simulator/detector.py: Detector.render, Detector.peaks_detector_intersection, Detector._render_airy_peaks, Detector._render_projected_volumes, Detector._render_gauss_peaks"]}
{"id": "C104", "title": "Displacing the sample, or the motion's travel and rotation centre, changes no reflection: only where it starts, and its spot moves by the displacement seen along the ray", "statement": "Take a sample and the same sample built from mesh vertices shifted by v (same orientations, strains and phases), and two rigid motions with the same rotation axis and angle but arbitrary translations and rotation centres; use Polycrystal.diffract without a detector argument and beams with the same direction, wavelength and polarization. A crystal point then sits, at time t, away from where it sat in the first set-up by w(t), the shift turned with the sample plus the shift of the centre plus t times the extra travel, the same w(t) for all points. diffract raises the same exception in both set-ups or returns two tables in which the rows whose source, displaced by w(t), is inside the second beam correspond one to one and in order to the rows of the second table whose source, displaced back, is inside the first beam; corresponding rows have equal entries in every column except Source_x/y/z (exactly w(t) apart) and peak_index (also equal when no source enters or leaves a beam). On every rectangular detector Detector.project then keeps each such spot that still hits the detector, with the same incident angle, frame and intensity factor, and its (zd, yd) is shifted by exactly (sz, sy), where w(t) + a K_out = sz zdhat + sy ydhat.", "quantifier": "all samples, meshes, shifts v, pairs of motions of the same axis and angle, beams, Bragg limits, detectors and frame counts", "why_tests_cant": "It compares whole peak tables and projected spots of two arbitrary set-ups, exactly; a test compares a few chosen shifts up to rounding.", "anchors": ["xrd_simulator/polycrystal.py: Polycrystal.diffract, Polycrystal._compute_peaks", "xrd_simulator/motion.py: RigidBodyMotion.__call__", "xrd_simulator/detector.py: Detector.project, Detector.get_intersection", "xrd_simulator/mesh.py: TetraMesh._build_mesh"]}
{"id": "C105", "title": "One rectangle, corners listed in another order", "statement": "Detector takes three corners; the same physical rectangle can be described in several ways. (1) Exchanging corner 1 and corner 2 (and the two pixel sizes or pixel counts): construction succeeds or fails with the same exception; peaks_detector_intersection of any diffract table records the same reflections in the same order with zd and yd exchanged and every other column equal, except that the incident angle becomes its supplement (180 degrees minus it); the 'micro' picture and the 'macro' picture (for the same hulls and sample points) are exactly the transposed ones, and 'macro' raises the same exception if it raises. (2) Listing a rectangle from corner 2, with the fourth corner as corner 1 and corner 0 as corner 2 (same pixel sizes): same construction outcome; the table records the same reflections in the same order with zd replaced by zmax - zd, yd and all other columns equal and the incident angle its supplement; for a panel of H whole pixels along z (H even, or no spot exactly halfway between pixel rows) the 'micro' picture has row i equal to row H - i of the original, and therefore it is not the flipped picture (row H - 1 - i) unless the picture is constant along z.", "quantifier": "all detectors (any three distinct-corner positions; rectangles for part 2), pixel sizes, settings, polycrystals, beams, motions, Bragg limits, frame counts, render limits and solver environments", "why_tests_cant": "A relisted detector must agree on every reflection of every sample; a test compares a few pictures, and cannot see ties, the one-pixel offset of a particular size or an angle that is off by its supplement.", "anchors": ["xrd_simulator/detector.py:Detector.__init__", "xrd_simulator/detector.py:Detector._get_intersection", "xrd_simulator/detector.py:Detector.peaks_detector_intersection", "xrd_simulator/detector.py:Detector.render", "xrd_simulator/detector.py:Detector._render_gauss_peaks", "xrd_simulator/detector.py:Detector._render_projected_volumes"]}
{"id": "C106", "title": "Refining the mesh changes no total, only the peak widths", "statement": "When the elements of a sample are cut into parts whose volumes add up (same orientation, strain and phase as the parent), every reflection of an element is reported once for each part whose centre is in the beam, at the same time and with the same Miller indices, scattering vector, structure, Lorentz and polarization factors; conversely every reflection of a part belongs to one of its parent. With the sample in the beam throughout, the sum over the reflections of volume times any quantity not depending on the element is the same for both meshes. The constructor accepts the fine sample when it accepts the coarse one. The Scherrer width, however, is computed from the volume of the mesh element: a part gets a broader peak than its parent (twice as broad for parts of one eighth), so the 'nano' picture depends on the fineness of the mesh.", "quantifier": "all samples, all ways of cutting their elements, beams, motions, Bragg-angle limits and weights", "why_tests_cant": "it relates two runs on arbitrary meshes with an arbitrary parent relation and an arbitrary additive quantity; a test compares a few meshes and a few sums", "anchors": ["xrd_simulator/polycrystal.py: Polycrystal.__init__, Polycrystal.diffract, Polycrystal._compute_peaks", "xrd_simulator/mesh.py: TetraMesh", "xrd_simulator/scattering_factors.py: _scherrer"]}
{"id": "C107", "title": "Peak positions measure the strain the user gave", "statement": "Build a Polycrystal with rotation matrices as orientations and symmetric strain tensors, then move it by any transforms (unit axes) and call diffract any number of times. In every row of the next diffract table, with h, G0 and 2theta those of the row, eps the current lab-frame strain of the row's element, N the direction of G0, and B0 the reciprocal matrix xfab gives for the unstrained phase: (|B0 h| / |G0|)^2 = (sin theta0 / sin theta)^2 = 1 + 2 N.eps N, where wavelength |B0 h| = 4 pi sin theta0. Hence the peak lies at a smaller angle than that of the unstrained lattice exactly when the strain along its normal is positive (tension), at a larger one exactly when it is negative, at the same one exactly when it is zero. A uniform strain c I gives spacings sqrt(1+2c) times the unstrained ones, never 1+c unless c = 0 (the tensor is the Green-Lagrange strain). When the normals of some rows of an element resolve all strain components, the element's strain is the only symmetric tensor that reproduces the spacings of those rows.", "quantifier": "all samples, strains, orientations, phases, histories of transform and diffract calls, beams, motions, Bragg-angle limits, reported rows, and candidate strain tensors", "why_tests_cant": "It ties an exact nonlinear relation through strain conversion, every history of moves and the peak table to every reported row; a test compares a few strains to first order within a tolerance.", "anchors": ["xrd_simulator/utils.py: _epsilon_to_b, _lab_strain_to_B_matrix", "xrd_simulator/polycrystal.py: Polycrystal.__init__, Polycrystal._instantiate_eB, Polycrystal.transform, Polycrystal.diffract", "xrd_simulator/laue.py: _find_solutions_to_tangens_half_angle_equation"]}
{"id": "C108", "title": "A full turn shows every reflection exactly twice or never", "statement": "RigidBodyMotion rotates by less than half a turn, so a full turn is taken in n scans: diffract, transform(motion, 1), diffract, and so on, with n times the motion's angle equal to 2 pi. Let a be the unit rotation axis, k the incoming wave vector and G the scattering vector of a plane of an element at the start. (1) If ((k.a)(G.a) + |G|^2/2)^2 < |a x k|^2 |a x G|^2 (the circle G describes crosses the Ewald sphere), the element stays in the beam and the reflection does not fall exactly on the start of a scan or half a turn away from one, then the n tables together show that plane of that element at exactly two (scan, time) places. (2) If the left side is larger (blind region of the axis), no table ever shows it, whatever the angle of the motion about that axis and however often the sample was transformed before. (3) A plane that would reflect exactly half a turn after the start of a scan is not shown by that scan at all, not even at a time inside it at which it does reflect. (4) One scan shows a plane of an element at two times at most, whatever its angle (a plane that reflects at every angle is the only exception).", "quantifier": "all samples, elements, planes, rotation axes, wave vectors, numbers of scans, translations, origins and Bragg-angle limits", "why_tests_cant": "It counts the reports of an arbitrary reflection over arbitrarily many scans and rules out any loss or repetition between consecutive scans; a test follows a few reflections.", "anchors": ["xrd_simulator/laue.py: _find_solutions_to_tangens_half_angle_equation", "xrd_simulator/polycrystal.py: Polycrystal.diffract, Polycrystal.transform", "xrd_simulator/motion.py: RigidBodyMotion"]}
