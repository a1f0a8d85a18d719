# Formal model of xrd_simulator in Rocq (Coq 8.16.1)

Start reading at `rocq/theories/Properties_*.v`: they contain only the property theorems, each closed by
`exact`, each followed by `Print Assumptions`. The vocabulary of the statements is in `Spec.v` and `S*.v`.

## Layout
| files | contents |
|---|---|
| `Num.v`, `Vec.v` | numbers with IEEE specials, exceptions as values (`result`), 3-d linear algebra |
| `M*.v` | the model: one file per source module, definitions only, each citing file and lines of /repo |
| `Spec.v`, `S*.v` | specification vocabulary; no function of the code is used to say what the code should do, except where a property is about the relation of two calls of the API |
| `P*.v` | proofs. `pCnn_*` are the property lemmas, `xCnn_*` the non-vacuity examples beside them |
| `Properties_*.v` | generated by `tools/gen_properties.py` |
| `tools/gen_manifest.py` | regenerates `MANIFEST.json` and `_CoqProject` |
| `tools/gen_assumptions.py` | regenerates `ASSUMPTIONS.md` from the output of every `Print Assumptions` |
| `seeded/` | wrong programs tried against the theorems (`LOG.jsonl`, runner, mutant lists) |

Suffixes: `_refuted` is a proved counterexample to the property as one would like it (or as the
documentation claims it); `_partial` would be a weaker theorem than the property (none at present).

## Trusted base
1. Coq's kernel. No plugins, no axioms, functors or module types of our own, no switched-off checks.
2. What `Print Assumptions` lists (see `ASSUMPTIONS.md`, per theorem). Only standard-library axioms occur:
   `ClassicalDedekindReals.sig_forall_dec`, `ClassicalDedekindReals.sig_not_dec`,
   `FunctionalExtensionality.functional_extensionality_dep` (all three come with `Reals`) and, where the
   analysis library uses it, `Classical_Prop.classic`.
3. The reading of /repo. The code was not run (no dependencies in the sandbox).
4. The idealisations and external functions listed below.

### Arithmetic
* float64/float32 is idealised as exact real numbers plus the IEEE special values
  (`Fin r | PInf | NInf | NaN`), with IEEE comparison, multiplication, division and square root on the
  specials, wherever a special value can flow into a comparison, mask or filter. `math.pi` is `PI`.
* Rounding is not modelled, except in `MFloat.v`/`MFloat2.v` (IEEE binary64 of the standard library's `SpecFloat`), for
  the two properties about it (the number of pixel rows, C30, and the frame of a time, C31). `PFloat.v` relates these
  operations to real numbers with Flocq's proofs about its own copy of them (Flocq is used as a proof library only; the
  statements use `SpecFloat` and `SFloat.v`; it adds no axiom beyond the standard library's).
* The sign of an infinity produced by dividing by an exact zero depends on the sign of that zero, which
  reals do not have: it is a universally quantified boolean (`zneg`, `z`).
* Two-sided comparisons of real numbers in definitions are decided with the classical `Rlt_dec`,
  `Req_EM_T`; the model is therefore not executable by `vm_compute` on reals (examples are proved instead).

### External functions: universally quantified arguments of the theorems (never axioms)
| external | model | what a theorem may assume about it |
|---|---|---|
| scipy ConvexHull / HalfspaceIntersection (beam) | record `qhull` | nothing; C23/C25/C27 state as hypotheses that the returned half-spaces are those of the hull |
| scipy linprog in `_find_feasible_point` | `lp_solver` | nothing (the code re-checks the point); for the repair step, that the slacks belong to the point |
| numpy.linalg.solve in `_find_feasible_point` | any `lsq_solver`; exact `solve_step` (`MBeam2.v`) for the repair step | nothing |
| scipy ConvexHull of the lit part (macro rendering) | `re_hull` | hypothesis per theorem (volume, corners) |
| random point sampler `_sample_convex_hull_3d` | `re_sample` | points lie in the hull, where needed (proved of the sampler itself in C82) |
| scipy.special.j1 | `re_j1 : R -> R` | nothing |
| torch.argsort(descending) | `re_argsort` | returns a permutation |
| torch memory query | `re_free_micro`, `re_free_nano` | nothing |
| xfab form_b_mat, genhkl_all; CIF reader; atomlib table; cell_invert; spacegroup operations | `xtal`, `structure` | nothing, or invertibility of B, stated per theorem |
| xfab u_to_euler, scipy Rotation.mean | `orientation_tools` | nothing |
| meshpy tetgen | `tetgen`, `tet_build` | nothing; C80 states per theorem: nodes stay in the hull of the surface / input nodes are kept |
| skimage marching_cubes | `marching_cubes` | nothing; C80 states per theorem: vertices in cells with a sign change, a vertex on every crossed edge, ValueError without sign change |
| numpy.random, scipy Rotation.random | `generator`, `rots` | uniform numbers in [0,1); rotations, where stated |
| dill, meshio, the file system | `disk`: contents of complete / incomplete files by path string | a complete pickle reads back what was written; meshio checks cell-data lengths |
| torch.linalg.eigvalsh | its sign condition via principal minors | `psd_iff` proves minors <-> quadratic form nonnegative |

### Modelled
motion.py (all but docstrings); laue.py (all);
polycrystal.py: constructor, `diffract`, `_compute_peaks`, `transform`, `save`, `load`, `_instantiate_*`,
`_get_bragg_angle_bounds`, object identity of the mesh and of shared phases; phase.py with failing CIF files; beam.py (all); detector.py: constructor,
`contains`, all geometry, `peaks_detector_intersection`, `render` and the three renderers, PSF, kernels,
batching, bounding boxes, hull projection, `save`/`load`; mesh.py: `generate_mesh_from_vertices`, `generate_mesh_from_levelset`, attributes,
`update`, `rotate`, `translate`, `save`, `load`; scattering_factors.py; structure_factors.py; utils.py: strain,
spheres, volumes, clipping, diffractogram, intervals, logging, progress bar, memory report, circumscribed sphere, misorientation;
cuda.py `configure_device`; templates.py: `s3dxrd`, `polycrystal_from_odf`, `get_uniform_powder_sample`,
`_sample_ODF`.
### Not modelled
Rounding (see above); dtypes and device placement of tensors; printed text other than cuda.py's and that of
rendering (C85); wall-clock time and memory use; the
interior of the external functions; matplotlib/plotting; tables with non-numeric columns; concurrent use of
one object from several threads.

## Findings (each is a theorem)
| claim | finding |
|---|---|
| C03 | `inverse()` does not invert a motion whose rotation moves its translation |
| C04 | a slightly non-unit axis is accepted and the motion is then not rigid |
| C06 | `translate` on an (N,3) array adds the wrong components |
| C08 | a reflection that also satisfies the Laue condition at a rotation of pi loses its other root; a tangent reflection is reported twice |
| C13 | `diffract` raises IndexError if exactly one event exists in the whole sample, and always for a polycrystal built without a phase map |
| C16 | the peaks dictionary changes when the polycrystal is transformed afterwards |
| C17 | the user's maximal Bragg angle is ignored when a detector is given |
| C21 | the documented ValueError for inadmissible strain is an IndexError for fewer than three elements |
| C24 | a beam with negative wavelength loads with a reversed wave vector |
| C26 | proximity intervals miss the tail of a run that ends at the last but one sample |
| C25 | an LP point on a facet or an edge makes the repair step raise LinAlgError |
| C27 | candidate spheres are missed for motions whose inverse does not invert; the documented (3,n) layout raises; the documented sampling steps (half a radius, one degree) can be exceeded by up to a half |
| C28/C29 | non-orthogonal detector edges give wrong coordinates |
| C30 | n_pixels can give one row too many in binary64 |
| C30 | pixel_size can give one row too few in binary64 (an edge of 1 in pixels of 1/3: 3 rows; the exact quotient asks for 4) |
| C31 | with 3 frames a time just above 2/3 is recorded in frame 1 in binary64 |
| C33 | re-projecting a projected table filters with the first detector's coordinates |
| C34 | the default angle limit is too small for detectors beyond 90 degrees or other source points |
| C35 | a partial last pixel row is never rendered by 'macro' |
| C37 | with pixels below 0.1 the automatic method renders peaks twice |
| C38 | the batch size uses a figure in GB as bytes and never adapts |
| C40 | an absolute cut-off makes weak peaks vanish |
| C42 | a 'nano' image can depend on the machine's free memory |
| C44 | Airy kernels are off-centre for non-integer radii |
| C46 | sigma = 0 gives NaN images |
| C47 | 'macro' intensities carry a pixel-area factor that 'micro' and 'nano' do not; a sliver missed by all pixel rays gives NaN |
| C48 | faces parallel to the ray are ignored, so a ray outside of the body can get a positive length |
| C51 | bounding spheres are not minimal |
| C52 | `evolumes` is signed |
| C53 | translate after update jumps back to the unmoved coordinates |
| C56 | powder elements alternate between signed volumes and share nodes; spare nodes remain |
| C57 | the "maximum" bin separation is a minimum |
| C61 | Friedel's law fails with dispersion (physically right, but used nowhere) |
| C64 | the companion xdmf name is truncated at the first dot |
| C66 | the last ring of a diffractogram is dropped |
| C67 | leaving a nested verbose block silences the outer one |
| C69 | mesh export rewrites the caller's dictionary; a second save with it raises |
| C70 | phase-map values and lengths are not validated |
| C71 | sampled points near the border wrap around or raise IndexError |
| C72 | the radius of a 'nano' disc uses |corner 0|/cos(incidence) instead of the flight path of the ray; on a detector facing along the rays size broadening has no effect at all |
| C73 | a grain only partly on the detector keeps its whole weight in 'macro' images |
| C76 | cylinder caps are wound inward |
| C77 | saves are not atomic |
| C80 | the bounding radius and the maximal element radius of a level-set mesh are not bounds; bodies between the grid points are not found |
| C81 | float64 arrays given to a motion or a detector stay shared with the caller; later writes change the motion, or make the detector inconsistent |
| C83 | the deprecated pixel helper disagrees with the hit test on the far edges and with a partial last pixel; grazing rays are dropped |
| doc | `render`'s docstring gives 'micro' as the default method, the code's default is 'auto' |
| C86 | the memory report's CPU "total" counts only the listed tensors |
| C87 | a CIF file that fails leaves a phase with new reflections and old structure factors |
| C88 | stepping through a scan shows a reflection exactly between two steps twice, and finds reflections that the undivided scan loses in its 180-degree blind spot |
| C89 | moving the whole experiment changes the 'nano' picture: the Airy radius uses the distance of detector corner 0 from the lab origin, not from the sample |
| C90 | two crystals whose separate diffract calls raise IndexError (one event each) give a table when simulated together |
| C93 | with strain, two symmetry-equivalent orientations of the same crystal give different scattering vectors (Cholesky factor in crystal axes) |
| C94 | brightness is not exactly proportional to the volume scale: single deposits of at most 1e-6 (absolute) are dropped; Airy discs of 'nano' shrink in pixels when everything is enlarged |
| C95 | Cutting a beam by a plane into two half-beams loses the reflections whose source point lies exactly on the plane: containment is strict on both sides (`pC95_cut_count`, `pC95_cut_in_two_refuted`). |
| C96 | A spot exactly halfway between two pixels is rounded to the even index, so moving the panel by an odd number of pixels draws it on different pixels (`pC96_odd_offset_refuted`); a panel never shows the tails of spots centred just off it, so abutting panels do not add up to the large panel's picture (`pC96_part_of_panel` gives the exact deficit). |
| C100 | Airy kernels of different parity cannot be stacked: a table with discs of radius 17/8 and 1/4 pixel renders on a machine without free memory and raises RuntimeError on one with 1 GB (`pC100_mixed_radii_refuted`) |
| C101 | two tables that each give a nano picture can have a union that raises RuntimeError (`pC101_mixed_discs_refuted`) |
| C102 | an accepted axis of length 1+-1e-5 makes a "rigid" motion change volumes by up to 8e-5 (exact factor in `pC102_motion_volume`); the stored element volumes ignore this |
| C103 | 'micro' pictures are not proportional to the structure factors (absolute cut-off 1e-6, `pC40_not_linear_refuted`); the error per pixel is at most (peaks of the frame) * max(1,c) * 1e-6. 'macro' ignores the recorded volumes |
| C104 | reflections depend on the rotation only; the sample's place, the rotation centre and the travel shift sources (and spots by the parallel projection of the shift), apart from what enters or leaves the beam |
| C105 | the corner order fixes the sign of the normal only through `incident_angle`, which becomes its supplement; 'micro' and 'macro' pictures transpose exactly, but numbering a panel from its other end gives picture row H - i, one pixel away from `np.flip` (pixels are sampled at i times the pixel size); 'nano' has no such law, since it divides by the cosine of that angle (C72) |
| C106 | the Scherrer width (hence every 'nano' disc) is computed from the volume of the mesh element, not of the grain: refining the mesh of the same sample broadens its peaks (parts of 1/8 the volume: twice the width), although all scattered totals stay the same |
| C107 | the strain tensor is the Green-Lagrange one in the sense (d/d0)^2 = 1 + 2 N.eps N: a user who enters small (engineering) strains gets spacings sqrt(1+2c), not 1+c (second order; uniform strain c = 0.1 gives 1.0954 instead of 1.1) |
| C108 | a reflection that falls exactly half a turn after the start of a scan is outside that scan's range, yet it makes the solver drop the *other* reflection of the same plane that is inside it (C08); a full turn then shows the plane once instead of twice, hence the hypothesis `clear_of_steps` |

## Per property: what is modelled and how it is proved
* **C01-C06** motion.py. Rodrigues matrix over R; array shapes as sum types, exceptions as values. Matrix identities
  by `ring` modulo |axis| = 1, trigonometry; shapes by induction on lists.
* **C07-C09** laue.py. Solver over `num` with its NaN masks; both directions of the half-angle substitution; the
  exact blind spot is a zero leading coefficient.
* **C10-C13, C15, C17, C18, C70** polycrystal.py `diffract` as a function of state and oracles; rows characterised
  by an inductive description of `_compute_peaks`; completeness by inverting the gathers; history by invariants.
  C13 is also stated by counting physical diffraction events (`SEvents.v`, `PEvents.v`), without the code's row layout.
* **C14, C16, C19** state machine of constructor/diffract/transform/load (`reachable_pc`), object identity with a heap.
* **C20, C21, C65** strain algebra: Cholesky factor, metric, exact failure conditions through principal minors.
* **C22-C27** beam.py: half-space systems as lists, external hull and LP, run-length loop for intervals; `MBeam2.v`/`PBeam2.v`
  add row order, the repair step and the sampling step.
* **C28-C35, C49** detector geometry over `num`; frame bins; bounding boxes by convexity.
* **C36-C48, C71-C74, C79** rendering: images as functions, deposits as lists, batching by `firstn/skipn`,
  kernels as square arrays; sums by permutation and exchange lemmas.
* **C80** `generate_mesh_from_levelset`: grid indices by induction, closeness by the intermediate value theorem.
* **C81** array memory as a store, constructors that share or copy; refinement of the functional models, invariants over histories.
* **C82** `_sample_convex_hull_3d` with the random numbers (one uniform, four weights per sample) as inputs; numpy's `choice` modelled as its cumulative-sum search. Barycentric coordinates, monotone cumulative sums.
* **C83** the deprecated detector and Laue helpers, compared with C28/C48/C11's methods; counterexamples on edges and at grazing incidence.
* **C84** composition of C08–C16 (which reflections), C28/C31/C32 (which hit, with which intensity) and C39/C40 (what a row deposits): the rows of the peak table are labelled by (element, plane, time) without repetition except for double roots (PEnd.v), each label is turned into a `seen` record of SEnd.v and the image is re-summed over these records (PEnd2.v).
* **C85** the renderers once more as computations that emit output (`MVerbose.v`: list of printed items beside the result); their result component is shown equal to the silent model, and the list of bars, warnings and notes is characterised by induction over the batches. The line about a limited Airy window is specified in `SRadius` (`asks_for`, `batch_log`) and proved in `PRadius`, with a worked case in `PRadiusEx`.
* **C86** the answers of psutil, CUDA and the garbage collector as inputs; sorting by insertion, listing as a prefix of the sorted list.
* **C87** Phase objects as a heap, polycrystals as references to it, file contents as an argument of each call; a simulation relation ("same material, same hand-set structure factors") is preserved by every call and decides the result.
* **C88** The n-fold transform of the step motion is the scan motion at time k/n (rotation about an axis parallel to the translation commutes); spots of step k correspond one to one to spots of frame k, and C84 turns both spot lists into pixels.
* **C89** Two sets of inputs related by x -> A x + t (`SFrame.v`); the solver's coefficients, the factors and the closed form of the projection only contain dot products and differences, so rows correspond under one row map (`PFrame*.v`), and both renderers read only columns and detector scalars that the map keeps. The beam region is related as a set (its stored faces come from Qhull and are rounded: C23).
* **C90** `SJoin.v` says what it means that one sample holds the elements of two; the labelled list of all peaks (`PEnd.v`) of the joint sample is, as a duplicate-free list characterised by membership, the first list followed by the second with shifted element numbers (`PJoin.v`, `PJoin2.v`); the picture is a sum over that list (`PJoin3.v`). The eB loop, gathers and scatters over concatenated arrays are shown to split (`pC90_built_together`). With a detector argument the Bragg limits depend on the sample, hence detector=None (C17 reduces the other case to limits).
* **C91** `SNumber.v` defines a renumbered sample; labels of peaks are mapped by the renumbering and the duplicate-free label lists correspond (`PNumber.v`); tables, refusals, pictures and histories in `PNumber2.v`; element-wise characterisation of the lattice loop and the constructors on permuted arguments in `PNumber3.v`; two crystals with exchanged numbers in `PNumber4.v`. The picture claim is for 'micro' (the others depend on the row order through memory batches, C42, or on qhull).
* **C92** `SBack.v` says when two rows / spots mirror each other; `PBack.v`: undoing the motion turns every label of the one call into a label of the other (duplicate-free lists correspond), Lorentz factor and grazing do not see the sign of the axis; `PBack2.v`: refusals, frames in reverse order, frame edges, blind spot; `PBack3.v`: concrete scans.
* **C93** `SCrystal.v` says when two samples hold the same crystals (same volumes, centres, (G, |F|^2) pairs per element) and what a symmetry operation of the listed planes is. `PCrystal.v`: the duplicate-free label lists of the two calls are aligned one to one, rows and pixels follow; `PCrystal2.v`: an unstrained sample turned by symmetry operations can be built, produces as many rows (so the same outcome) and holds the same crystals; `PCrystal3.v`: counterexample for every non-zero shear strain, and a concrete turned crystal.
* **C94** `SScale.v` says what the set-up enlarged by s is and by which factor each table column answers. `PScale.v`: the 10-column rows do not depend on lengths at all, the full rows are the old ones with each column multiplied by its factor (Scherrer width: the cube root of s^3 v is s times that of v), the beam mask and the Bragg source follow; `PScale2.v`: hits, containment, pixel grid and wrapping cone of the enlarged detector; `PScale3.v`: bounding spheres, volumes and centroids of the enlarged mesh, so the enlarged parts are what the constructors give; `PScale4.v`: the public statements, the cut-off bound on pictures and an example with s = 2.
* **C95** The illuminated region of the beam. `SAperture.v` names beams with the same X-rays, narrower beams and the two parts of a beam cut by a plane. `compute_peaks` never looks at the region, so both calls share one list of rows (`all_calls`); `diffract` filters it by strict containment. Pictures: the spot of a row (C84 labels) depends on the region only through containment, hence sums over one common list (`pC95_picture_monotone`, `pC95_picture_split`). The Bragg limits are explicit: with a detector argument the limits themselves depend on the region (vertices inside it), which is C94/C38 territory.
* **C96** Detectors on one pixel grid. `SWindow.v` defines `same_grid n k` (parallel edges, corner 0 at a pixel corner, same pixel size and switches), `also_on`, `no_ties`, `well_inside`, `part_of`. `grid_ray` compares the two intersection computations of one ray (same plane, coordinates differ by the offset), `grid_tables` pairs the recorded rows, `spot_shift` moves the Gaussian spot by whole pixels when round-half-to-even commutes with the offset, and the pictures follow from C39's sum of spots. `pC96_built` shows which constructor calls give such a pair.
* **C97** Passenger columns. `SPassenger.v` lists the columns a detector reads (`picture_column`) and `agree_on`. Proof: erasing all other columns (`bl`) commutes with projection and leaves every rendering method unchanged (`render_gauss_bl`, `render_airy_bl`, `render_macro_bl`), so equal erased tables give equal pictures.
* **C98** The beam's description. `vdiv_scaled` for lengths, evenness of the polarization factor for signs, uniqueness of strictly sorted lists (`sorted_unique`) for the order of hull planes; erasing column 20 for polarization (`compute_pol`, `diffract_pol`), then C97 for pictures.
* **C99** Friedel pairs. `SFriedel.mirror`; turning by an odd multiple of pi and inverting is the mirror (`half_turn_mirror`), it commutes with the scan rotation (`rod_mirror`), keeps k when k is perpendicular to the axis, and leaves the Lorentz factor, 2theta and (polarization parallel or perpendicular to the axis) the polarization factor unchanged (`lorentz_mirror`: eta becomes pi - eta, the two cut-offs swap). Completeness and soundness of the table (`peaks_iff`, `peaks_complete`) give both directions.
* **C100** Success of 'nano'. `kernels_err`/`loop_err`: the only error inside is torch.cat's RuntimeError; `nano_succeeds` reduces success to the stacking of each batch, which `kernels_odd` (whole sampling radius, odd sizes) and `kernels_same` provide; without memory each batch is a singleton (`pC41_no_memory`). Refutation: radius 17/2 gives 18 samples, the window of radius 8 misses a pixel brighter than the threshold (`edge_energy`, `even_crop`), so the kernel stays 18 wide while the point spread kernel is padded to 19 (`mixed_kernels`).
* **C101** Nano pictures add up. `nano_formula`: with uniform discs every batch gets the same kernel radius, so the picture is the convolution of the drawn spots with each row's own kernel (`drawn`), independent of batching; `conv2_add` gives additivity; `agree25`/`part_of` compare rows up to grain, phase and peak numbers, so C90's joint tables and C91's renumbered tables apply. `PNano8.v` exhibits a reachable two-crystal sample with a visible peak. Refutation: the mixed table of C100 split into its two rows.
* **C102** Genuine tetrahedra. `rod_det` computes the determinant of the Rodrigues matrix for an axis of any length; `rod_det_near` bounds it for accepted axes; `solid_run`/`pC102_sample_solid` carry general position through all operations (including translate, which restarts from the stale point array). `SVolume.made_pc` is reachability with constructor-made motions only.
* **C103** Brightness factors. `SLinear.rescaled` relates two tables by the columns that are multiplied. `PLinear` maps a row to its rescaled row (`sr`), commutes the projection with it and pushes the factor through deposits, kernels, index_put and conv2 (`tm` is multiplication by a positive number on IEEE values); micro is bounded through the spot formula of C39.
* **C104** Displaced samples. `SShift.displacement` speaks about motion_call only; `PShift` shows both calls filter and number the same list of labels (`two_lists`), `PShift2` shifts the ray equation. Only without a detector argument: the Bragg limits depend on where the sample is.
* **C105** Corner order. `SCorner.transposed` / `turned_over` relate two built detectors by their corners and pixel sizes; `relaid` compares table rows by column name. `PCorner` derives both table laws from one lemma (`via_project`: the closed form of the ray/plane intersection composed with a map of the detector coordinates); `PCorner2` reads pictures as sums of spots (C39) and reflects a rounded Gaussian window; `PCorner3` carries the deposits of 'macro' through the transposition as a permutation and shows the point spread kernel is symmetric; `PCorner4` does the constructors and a worked case.
* **C106** (Refine): `refines f p q` (SRefine) says with a parent map `f` what a refined sample is; the labelled peak list of PEnd/PJoin gives that the labels of the fine sample are the children of those of the coarse one, hence the row-by-row correspondence (`pC106_each_part`, `pC106_each_parent`) and the conserved sums (`pC106_conserved`, any weight that reads only the element-blind columns). `pC106_cut` is the geometry (a tetrahedron cut at any of its points), `pC106_built_refined` the constructor. `pC106_broader`/`pC106_twice`: the Scherrer widths do depend on the mesh.
* **C107** (Gauge): `fits x p` (PGauge) is the invariant "the stored lattice matrix of every element of a known phase is the strain conversion of its current orientation and strain"; it holds after the constructor (eB_loop_in) and is kept by transform (the crystal-frame strain is invariant under a common rotation) and diffract (phases keep their cell). With it a reported row's G0 = U B h gives |B0 h|^2 = |G0|^2 + 2 G0.eps G0 from F^T F = I + 2 U^T eps U; Bragg's law (C11) turns lengths into angles. G0 <> 0 is proved, not assumed: the Laue solver masks a zero vector. PGauge2: uniform strain; uniqueness of the strain when the normals resolve it. PGaugeEx: a crystal expanded by c = 3/2 (spacing doubled) with reported rows; six directions that resolve every component.
* **C108** (Turn): PTurn proves that A cos x + B sin x + C has exactly two zeros in [0, 2 pi) when C^2 < A^2 + B^2 and C <> A (the substitution x = 2 atan s, wrapped), none when C^2 > A^2 + B^2, and identifies the solver's three coefficients geometrically. PTurn2 follows the scattering vector through the transforms (rotation by j steps), places each zero in one scan (floor), and uses peaks_iff / pC12_complete for both directions. PTurnEx: three scans of a third of a turn in which a plane reflects at 30 and 90 degrees, all three calls returning tables (two events in the first, none in the others). PTurn3: a plane that would reflect half a turn after a scan's start is never shown by that scan; two times at most per scan.
* **C50-C54** mesh.py: per-tetrahedron geometry (outward normals, enclosing ball case split), history invariant.
* **C55-C58, C76** templates.py: detector/beam/motion from parameters; powder loop; ODF grid (telescoping sums of
  bin volumes, real analysis for the 1e-6 bound); cylinder surface combinatorics.
* **C59-C60** scattering factors: real analysis of sin/acos/Rpower.
* **C61** structure factors: batched lists against the textbook sum; group action for equivalent reflections.
* **C62, C67** state machines over call histories. **C63, C64, C69, C77, C78** disk as a map, writes as steps,
  interruption as a prefix of the steps. **C66, C68, C75** remaining helpers.

Properties that no model here can express: numerical accuracy in general (needs rounding), GPU/CPU agreement,
run time and peak memory.
