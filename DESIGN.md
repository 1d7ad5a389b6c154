# Formal model of sumo-challenge: design

The model is written in Rocq/Coq 8.16.1 under `rocq/theories` (logical name
`Verif`).  It is a reading of the Python, Cython and C++ sources in `/repo`
(facebookresearch/sumo-challenge); nothing from the repository is compiled or
executed.

## Layout

One directory per area, each with the same files:

* `Model.v`  executable Gallina definitions, one per function of the code, each
  with a comment citing file and lines and stating what it simplifies;
* `Spec.v`   a small specification that does not mention the model's helpers, and
  the contracts of the library calls;
* `Proofs.v` lemmas;
* `Props.v`  the property theorems (`Cnn_…`), an `Example` with a concrete case
  that meets their hypotheses, and `Print Assumptions` for each theorem.

Larger areas (`Glb`, `Mesh`, `Scene`) have further lemma files.  `Glb/Toy.v` and
`Scene/Toy.v` model nothing of the code: they show that the format contracts can be
met.  The theorems of C69 and C70 are named `C43_…`, in `Sample/Props.v`.

`Base/` holds what several areas share: `Py.v` exceptions as values and
dictionaries, `Sort.v` the stable sort, `Vec.v` vectors and 3*3 matrices over
`R`, `Fs.v` the file system, `Xml.v` element trees.

## Conventions

* Exceptions are values: `Ok x | Err e` with `e` naming the Python exception.
  `Undefined` marks C++ undefined behaviour, `Terminate` the end of the process.
* Python `dict` = association list in insertion order; assignment to an existing
  key keeps its position, as CPython does.
* Numbers.  Where the code only compares numbers (association, sorting) or the
  property is about exact rational arithmetic (AP), the model uses `Q`: every
  finite float is a rational, so comparisons are exact; rounding of `+ * /` is
  not modelled.  Geometry uses the classical reals `R` of the standard library.
  The inverse depth conversion is the exception: there every operation is
  followed by an arbitrary rounding that meets a stated error bound.
  NaN and infinities as inputs are outside the model unless an area says
  otherwise; where the code *produces* NaN or infinity (`np.mean([])`,
  `math.inf`) they are explicit values.
* Machine integers are unbounded `Z`/`nat` unless a property is about wrap-around
  (mesh indices are 32 bit, sizes 64 bit, bytes 0..255).
* Libraries are oracles: section variables or arguments constrained only by the
  contract stated in the area's `Spec.v`.  Theorems quantify over every oracle
  that meets its contract, and an example shows that the contract can be met.
* A claim that is false of the code is proved as `…_refuted` with a witness, next
  to the strongest true version.

## Trusted base

* the Coq kernel (and `coqchk`);
* the reading of the code: each `Model.v` definition cites the lines it models;
* the oracle contracts, listed per area below;
* the axioms reported by `Print Assumptions`, summarised per theorem at the end of
  this file.  All come from the standard library; none is declared here:
  * `ClassicalDedekindReals.sig_forall_dec`, `ClassicalDedekindReals.sig_not_dec`
    and `FunctionalExtensionality.functional_extensionality_dep`, the axioms of
    the classical reals;
  * `Classical_Prop.classic`, pulled in by parts of the real analysis library;
    only theorems of C27, C28, C32, C51 and C57 list it.

  No kernel check is switched off, and nothing is admitted.

## Areas: what is modelled, what is assumed, what is left out

**Assoc** (C01-C05; `metrics/evaluator.py`).  `_make_similarity_cache`,
`_compute_agnostic_data_assoc`, `_compute_category_data_assoc`, the constructor.
The similarity function of the track is an argument.  Left out: NaN similarities.

**AP** (C06-C12; `metrics/utils.py`).  `compute_pr`, `compute_auc_ap`,
`compute_ap`.  Contract `argsort_ok`: `np.argsort` returns some permutation that
sorts.  Left out: rounding, plotting; `n_gt = 0` (the callers guard).

**Scores** (C13; `shape_score`, `semantics_score`).

**Points** (C14-C17; `points_iou`, `nearest_neighbors`, `points_rmsssd`,
`color_rmsssd`, numpy's broadcasting rule).  Contract `query_ok`: BallTree gives
the distance to a nearest neighbour and its index; met by exhaustive search.

**Box** (C18-C21, C60; `box_3d.pyx`, `compute_bbox.pyx`, `bb_evaluator.py`).
pymesh's volume and intersection are arguments; C60 states as hypotheses what it needs
(an intersection is no larger than either mesh; a mesh intersected with itself is
itself).  Left out:
float32 storage of vertices.

**Voxel** (C22-C24, C52, C61; `voxel_grid.py`, `voxelizer.pyx`,
`voxel_evaluator.py`).  Left out: the int32 range of index arrays.

**Symm** (C25-C26; `object_symmetry.py`).  XML as element trees.

**Geom** (C29-C32, C58-C59; `rot3.pyx`, `pose3.pyx`, the conversions of
`metrics/utils.py`).  `atan2` and `asin` are defined over `R`.

**PoseErr** (C27-C28, C57; `pose_error`, `rotation_error_1`).  Contract
`lognorm_ok`: the norm of `scipy.linalg.logm` of a rotation is sqrt 2 times its
angle.

**Percept** (C51; `perceptual_score`).  A standard deviation of 0 is
`ZeroDivisionError`.  Left out: float overflow and rounding.

**Frame** (C78; no code of its own).  Spec: renamed scenes, rigid motions of points and
poses, `same_outcome` (same exception or related results).  The mesh track moves the
sampled points themselves: that sampling a moved mesh gives moved points is not part
of it.  For pose and perceptual scores the similarities of corresponding objects are
assumed equal.

**Copy** (C79; no code of its own).  Spec: `copies` (same categories and contents in
the same order), `told_apart` (a copy reaches every threshold and is less similar to
all other objects), `spread` (a sampled point further than the threshold), `full_marks`
= n/(n+epsilon).

**Extra** (C80; no code of its own).  Spec: `lower` (less confident than everything
submitted), `useless` (below every threshold to every object), `untied`,
`distinct_scores`, `no_lower` and `same_score` on possibly undefined scores.

**Run** (C81; `evaluate_all` of the three tracks, `tools/evaluate-one.py`).  The metrics
are those of the other areas; a method that reads only some attributes of the elements
sees a projection of the evaluator.  Arguments: loading a scene, sampling a mesh, the
similarity of the box track.  Spec: ranges of the numbers (`fraction`, `share`, `angle`,
`amount`), `plausible` (the five numbers and how they depend on each other).  Left out:
argparse, a path with a trailing slash (its last component is empty), the warning numpy
prints for the mean of nothing.

**Quat** (C82, C83; `quaternion.pyx`, the Surreal functions of `pose3.pyx`, conversions
and `unitize`, `on_left` of `vector.pyx`).  Arrays have shape, strides and element type.
Arithmetic over the reals.  Contract `eigen_ok` of Eigen's quaternions: a matrix that
turns vectors as the quaternion does, a unit quaternion of a rotation matrix;
`metrics_eigen` meets it.  Spec: `shows_list`, `shows_matrix` (the entries of an array),
`turns` (q v q* as a rotation matrix), `leftward`.  Left out: rounding, the behaviour of
the quaternion 0.

**Wrap** (C84; `opencv/wrap.pyx`, the texture of `TexturedMesh`).  Memory is a function
from addresses to bytes; arrays have byte strides, images a row distance.  Spec:
`views_gray`, `views_color` (each element of the array is at the address of the pixel),
`same_gray`, `same_color` (equal bytes), `only_changed`.  Left out: allocation (the
address of a new block is an argument and may overlap nothing read later, because
copies read before they write), freeing, dimensions above 2^31 of the typed views.  A
Python exception in a `cdef` function that returns a pointer is dropped and the pointer
is null (Cython 0.27.3); the Depth, Cloud and Tiff models treat their `cdef` functions alike.

**Equal** (C85, C86; `almost_equal`, `==`, `assert_*` of rotations, poses, boxes, models,
objects, dictionaries).  numpy's `isclose`, `allclose`, `array_equal` and assertions are
modelled by their documented formulas over the reals (no NaN or infinity; shapes agree).
Models are abstract: a count and the sizes of the meshes read, with the contract `counted`
that they agree in number.  Spec: `near`, `same_labels`.

**Alias** (C87, C88; which poses and scenes share memory).  Memory is a function from
addresses to reals; a pose is the list of the addresses of its entries, `np.transpose` and
slices give lists of the same addresses.  Programs are lists of operations on numbered
variables.  Spec: `v_run` (poses as values, for programs without assignments), `p_run`
(origin of the arrays of each pose, without addresses), `set_entry`, `set_coord`;
`g_step` (whose settings a scene has).  Left out: rounding, replacing whole arrays or
attributes, negative indices, threads.

**Round** (C89, C90; precision, recall, average precision, `np.linspace`, quotients of counts
in double arithmetic).  Values are rationals; `round` computes the nearest double, ties to
even, with subnormal numbers and without an upper limit (all numbers here are small).
Integer counts are exact.  The order in which `np.mean` adds is any binary tree over the
entries.  Scores are only compared.  Spec: `double`, `rounds_to` (nearest, tie rule),
`exact_ap` (without epsilon), `computed_precision`, `reaches_threshold`, `reaches_sample`.
Left out: extended precision, fused operations, the float arithmetic inside similarity,
error and distance computations.

**Round**, scores (C91; `Round/ScoreModel.v`).  `shape_score` and `semantics_score` with the
double-precision average precision and mean; the association and the vectors of matches are
those of Assoc and Scores, which only compare.  Spec: `adds_each_once`, `near_mean`, and
`scene_ap`, `scored_categories` from Scores.

**Contain** (C92; `point_in_box` with numpy broadcasting, assignment to the corner arrays).
An array is given by the length of its last axis and the vectors along it.  Boxes, corners,
volume and center are those of Box.  Spec: `interior` (a ball inside), the array layouts,
`convex_combination`.  Left out: NaN, rounding, arrays that are not numeric.

**Own** (C93; the pointers of `Mesh` and `TexturedMesh`, `getPolymorphicPrimitiveMeshes`).
A state is a list of memory cells with C++ meshes and a list of Python objects with their
two pointers; a program is a list of statements, and exceptions are caught.  Faults (null
pointer, freed memory, wrong class, undefined vector operations) end a program.  The
geometry is that of Mesh.  Spec: `cell`, `refers_to`, `leaked`, `shows`, `target`,
`plain`, `orderly`.  Left out: reference counting (deletion is a statement), failing
allocations, reuse of addresses, GltfModel objects (a model is the list of what extracting
its primitives gives), arrays of other shapes.

**Arrays** (C94; `vector.pyx` conversions, constructors and accessors of meshes, `rotate`,
`transform`, `from_mesh`, `from_open3d_mesh`).  A two-dimensional array is its shape and a
function giving its entries; a conversion that fails an assertion in a function with a C++
return type returns an empty vector, as Cython 0.27 does.  Conversion to float32 is an
arbitrary function; other arithmetic is real.  Spec: `array_equal`, `column`, `row`,
`each`, `proper`, `same_but_points`, `fixed`.  The result of Open3D's
`compute_vertex_normals` is an argument.  Left out: dtype and dimension checks, ownership
(Own), conversion of textures (Wrap).

**Uri** (C95; `tiny_gltf.h` 1126-1390, 1575-1656, 1736-1846, 2290-2480, 3999-4014,
4179-4186, 4499-4513: paths, base 64, data URIs, external files and the .bin file).  Texts
are lists of characters, a file system maps the name a file is opened with to its bytes.
Spec: `digit`, `number` (value of digits in a base), `plain`, `expands` (what is assumed
of wordexp; an instance is proved), `simple`, `folder`, `in_folder`.  Left out: limits of
`int` and `size_t`, permissions, failing writes, links, the image decoder.

**Json** (C96; `picojson.h` 123-253, 369-396, 485-664, 710-1135 and `RgbdTiff.cpp` 65-124:
parser, serializer, image description).  Texts are lists of bytes, doubles are rationals
rounded by `Round.Model.round`; `%.17g` is computed exactly.  Spec: a grammar with meanings
(`json`, with numbers `strict` or `loose`), `possible` values, `reread`, `version_is`,
`near_is`.  Left out: the sign of zero, the stack, locales, error messages.  (Tiff.Model
takes the description as a value; Json.Model is its text.)

**Doc** (C97; `tiny_gltf.h` 200-680, 1850-3713, 3899-4696: the classes, Parse..., Serialize...,
LoadFromString and WriteGltfSceneToFile).  A document is a value of type `json`; the text
between saving and loading keeps all of it but doubles, of which it makes what an argument
`f` says.  Conversion to float, wordexp and the decoder of images are arguments.  Spec: for
each class `X_ok` (what is asked) and `after_X` (what comes back), `model_ok`,
`after_model`, `broken`, `stable`, `picture`.  Left out: messages, reading of unset
members beyond `Undefined`, NaN and infinity, writing of image files.

**Text** (C98; `json.h`: the lexer, the parser and the serializer; `tiny_gltf.h`
LoadASCIIFromFile and WriteGltfFile).  Texts are lists of bytes.  snprintf("%.15g") is
`print_g`, on exact rationals; strtod is the nearest double (Round).  Spec: the grammar of
RFC 8259 as inductive relations with the value (`value_text`, `document`), `rounds15`,
`through15`, `held`, `readable`, `reread`, `single`, `to_single` and, for the numbers and
strings of a model, `of_model`.  Left out: messages, positions, depth of the C++ stack,
locales with another decimal point, NaN and infinity.

**Foreign** (C99; the parser of Doc on documents that the serializer never writes).  Spec:
`means`, a relation between a document and a model, member by member with kinds and
defaults, and `incomplete`; it shares only the types with the parser.  `expand` (wordexp)
has the contract of C95, `decode` (stb_image) is any function.

**PlyText** (C100; the text format of tinyply on top of Ply).  operator>> is modelled on
characters after libstdc++ (sentry, the characters that num_get takes, eofbit and
failbit); strtof and strtod are the argument `real`.  Reading after the stream has failed
leaves the variable uninitialised: `Err Undefined`.  Spec: `spaced` words, `ply_header`,
`binary_value`, `text_value`, `real_text`.

**Trip** (C101; Gltf, Doc, Text and Uri put together).  add_mesh builds the whole model of
Doc, with the bounds of accessors (floats as bit patterns, compared as in C++); the text and
the files are those of Text and Uri.  cv::imwrite and stbi are the arguments `encode` and
`decode`, inverse to each other on .png names (`png_ok`).  An infinite bound is not
modelled (`Err Undefined`).  Spec: `storable`, `same_content`, `extremes`.

**Png** (C102; stb_image.h 4260-4939).  Reading of .png files with all filters, depths,
palettes, transparency and interlacing; the decompressor is the argument `inflate`.  Memory
that was not written or allocated is `Err Undefined`; a failed assertion is `Err Terminate`.  Spec: pictures
(`photo`), what is seen of them (`shown`), and files as the PNG specification has them
(`scanlines`, `png_file`), as relations: all filters, all splits, all extra chunks.

**Zlib** (C103; stb_image.h 3786-4214).  The decompressor: bits, Huffman tables, all three
kinds of blocks.  Output is a list that always has room, so allocation and outputs of 2^30
bytes or more are not modelled; loops have turns.  Spec: RFC 1950 and 1951 as relations
(`tokens`, `length_codes`, `block`, `stream`), with the tables as formulas; a code is given by
the sum of what the codes before it take (`canonical`).

**Settings** (C56; the four evaluator constructors and `default_settings`).
Dictionaries have identities, so aliasing is visible.  Left out: a list of names
as thresholds (numpy sorts it; here it is refused at once), attributes that the
constructors store on the caller's elements.

**Timing** (C55; `measure_time`).  A function is a state transformer; `print` may
raise.  Left out: calls that do not return, an interrupt between switching the
collector off and the `try`.

**Depth** (C33; `inverse_depth.pyx`).  Contract: `f32`, `f64` are monotone
roundings with relative error at most 2^-24.  Left out: NaN, overflow and
underflow.

**Color** (C34; `colored_category.pyx`).  The csv file is its rows.

**Mesh** (C35-C39, C62-C64; `Mesh.h/.cpp`, `TexturedMesh.cpp`,
`textured_mesh.pyx`).  Out-of-range vector access is `Undefined`; uninitialised
memory is an arbitrary function.  Left out: rounding, aliasing of arguments.

**Gltf** (C40-C41, C65-C66; `GltfModel.h/.cpp`, `gltf_model.pyx`).  Floats are bit
patterns.  Left out: fields nothing reads (accessor bounds, extras), half-changed
models after an exception.

**Glb** (C42, C67-C68; `glb_converter.pyx`, saving and loading in
`gltf_model.pyx`, the parts of `tiny_gltf.h` they use).  Contracts `json_ok` and
`png_ok`: writing then reading gives the document and the image back.
`Glb/Toy.v` meets both.

**Sample** (C43, C69-C70; `sample_element`, `sample_mesh`, `ModelSampler`).  The
random draws are an argument.  Contract `uniform`: every draw is in [0,1).  Nothing
is said about their distribution, so no theorem says that samples are spread evenly
over a triangle.

**Cloud** (C46, C71-C72; `PointCloud.h`, `point_cloud.pyx`).  Contract `below`:
`randint(n)` gives numbers below n.  Left out: that adding
an integer returns the same object and not a copy.

**Ply** (C73-C74; `point_cloud_ply_c.cpp`, `point_cloud_ply.pyx`, the used parts of
`tinyply.cpp`).  Files are bytes.  ASCII bodies enter through `ascii_data`.  Left
out: list properties when writing, signs in counts.

**Scene** (C47-C50, C75; `project_object.py`, `project_object_dict.py`,
`project_scene.py`, `project_converter.py`, XML of rotations, poses and boxes, `.h5`
files of grids).  Contract `formats_ok` = `numbers_ok` (vectors are
printed with eight decimals and come back up to 5e-9, relative above 1; `str` of a
64-bit float gives it back exactly), `xml_ok`, `h5_ok`, `glb_ok`.  Left out:
sharing of attributes between objects (objects are values, so "the source scene is
unchanged" in C50 holds by construction), ids with a slash, h5 files without the
expected datasets, XML namespaces.

**Cube** (C45, C76; `CubeMap.h`, `Rgbdci360.cpp`, `create_point_cloud`).  Left out:
NaN ranges.

**Tiff** (C44, C77; `RgbdTiff.h/.cpp`, `rgbd_tiff.pyx`, `multi_image_tiff.pyx`,
`rgbd_360.pyx`, `rgbdci_360.pyx`, the used part of `opencv/wrap.pyx`).  A file is
its directories with their tags; a description is a JSON value.  Left out:
libtiff's layout and compression, images of size 0, NaN or
infinite `near`, read-only arrays; an exception out of a cdef function without an
except clause is `Undefined`.

**Fetch** (C53-C54; `tools/download_sumo_datasets.py`).  The server's answers,
operating system errors, what `zipfile` does with an archive (`unzip`) and the
order of the workers' steps are arbitrary arguments; tasks may interleave more
freely than three workers can.  Spec predicate `harmless`: archives do not extract
onto archives or marks.  Left out: log texts, creation of folders, slashes and glob
characters in names, failing directory listings.

## Plan per property

| id | how it is proved |
|----|------------------|
| C01 | induction over the sorted detections, invariant "assigned = image of result" |
| C02 | blocking-pair spec over arbitrary assignments; existence by loop invariant, uniqueness by induction on priority |
| C03 | incremental pruning over sorted thresholds = filtering the original table |
| C04 | two-run invariant: ground truth assigned at t2 is assigned at t1 |
| C05 | the category table equals the table built from the restricted scenes; error branch explicit |
| C06-C12 | list induction; AP as a sum over true positives; monotonicity by pointwise comparison of envelopes |
| C13 | counting: matched evaluated detections inject into evaluated ground truth |
| C14-C15 | counting; a distance is at least the gap on an axis |
| C16-C17 | cache invariant; broadcasting cases |
| C18-C19 | boxes as a lattice of point sets |
| C20-C21 | `ring` for all corners and poses; combinatorics of the fixed tables by computation |
| C22-C24 | Euclidean division; invariant over batches; witness by computation |
| C25-C26 | finite case analysis against a rule-based spec; `!=` as fuelled recursion that never returns |
| C27-C28 | the candidate list is closed under the symmetry group; angle of a rotation via its trace |
| C29-C32, C58-C59 | matrix algebra and trigonometry over `R` |
| C33 | rounding error bounds by interval reasoning on the code ranges |
| C34 | bounds cases |
| C35-C39, C62-C64 | list index lemmas, arithmetic modulo 2^32; fixed tables by computation |
| C40-C41, C65-C66 | invariant: buffers only grow, an accessor is a slice |
| C42, C67-C68 | slice-of-concatenation lemmas, byte arithmetic, composition of the format contracts |
| C43, C69-C70 | convexity; prefix sums of sample counts |
| C44, C77 | page tables as dictionaries, composition with C33 |
| C45, C76 | linear arithmetic on face coordinates |
| C46, C71-C72 | lists of points with or without colors |
| C47-C50, C75 | round trip by composition of element round trips; file system frame lemmas |
| C51 | each bell curve is between 0 and its weight; the matching from C02 |
| C52 | equality with the swapped evaluator; witness scene |
| C53-C54 | invariant over all interleavings of steps; poison invariant |
| C55 | case analysis on outcome, induction on the number of wrappers |
| C56 | store lemmas; the object equals the one of Assoc |
| C57 | means of non-negative lists |
| C60 | disjoint axis-aligned boxes are apart on some axis; a posed box lies in the box of its corners |
| C61 | the tight box of the samples gives non-negative voxel indices |
| C73-C74 | parser inversion on headers and rows; witness files |
| C78 | relational lemmas for the loops of the evaluator (same outcome on related states); distances under rotations; witnesses |
| C79 | going through the detections in priority order, the original is free when its copy comes; precision bound n/(n+epsilon); three one-point objects as witness |
| C80 | two stable matchings agree along the priority order; the ranking of distinct scores is unique, so additions go to its end or are filtered out again; witness scene |
| C81 | construction commutes with projecting the elements; AP is 0 exactly without counted matches; then the range theorems of the metrics; the program by computing with the default settings; witness scenes |
| C82 | from the contract: a unit quaternion determines its matrix and is determined up to sign; index arithmetic of the strides; shape analysis; witness arrays |
| C83 | sums of squares; triple products; the half-space is everything only if its normal is 0; witness |
| C84 | C-contiguity gives the strides of packed rows, hence equal addresses; memcpy inside and outside of its block; division with remainder for the channels; witness arrays |
| C85 | entrywise inequalities; triangle inequality with the entries of a rotation bounded by 1; decimal witnesses on one axis |
| C86 | induction over the meshes and the keys; witness objects; invariant of the dictionary under its operations |
| C87 | invariant: every origin owns a block of cells, blocks are disjoint without repetitions, and each pose is one block (possibly transposed) and one column; assignments then show in exactly one block; witness programs |
| C88 | invariant: an injection from groups to dictionaries; witness programs |
| C89 | correctness, uniqueness, monotonicity and relative error of `round`; invariant of the loop: double, error at most 12 * 2^-53 per correct detection, at least 2^-98 once a correct detection was seen; means by monotonicity and induction over the tree; computed witnesses |
| C90 | quotients of counts below 2^46 differ from i/20 and i/10 by more than the rounding errors unless equal; equality by computation; first position by `searchsorted` |
| C91 | per average precision the bound of C89 plus 2^-52 for epsilon; values in [0,2]; error of a tree of additions; both loops in lockstep; computed witness scene |
| C92 | coordinatewise comparison; the ball by the smallest distance to a face; products of barycentric weights; witness box |
| C93 | every statement has one of eight effects on the state; five invariants (pointers are live, textured pointers point to textured meshes, no two objects share a mesh, classes, both pointers agree); witness programs |
| C94 | the columns of an array determine the list of points and back; numpy expressions column by column; rotations commute with cross products and normalization; witnesses |
| C95 | bit operations as arithmetic in base 4, 16 and 64; induction four characters (three bytes) at a time; headers by computation with the rest opaque; last separator of an appended name; witnesses |
| C96 | mutual induction over the grammar for acceptance, induction on the fuel for soundness, stability of the fuel from the length of the rest; the gap between doubles (at least x/2^53) exceeds the error of 17 digits; induction over values for the serializer |
| C97 | for each class a lemma that its keys are found after serializing and that parsing gives `after_X`; maps stay ordered (strong sortedness); the sections of the document by one record `contents`; inversion of a successful load for `broken` |
| C98 | lexer and parser exact by induction on the length of the text, both directions against the grammar; digits and decimal places of `%.15g`; spacing of doubles against spacing of 15 digits for C98_short and C98_float; the edge by the two decimal neighbours of 2^1024; files by C97 and pointwise equal disks |
| C99 | one lemma per kind of member (Read), one per part (Whole), then the sections; refusal and C99_sane by inversion of a successful load |
| C100 | words with any spacing read one by one; both passes as one fold over all values (lists included) with the words left as invariant; x, y, z picked as in C73 |
| C101 | an invariant of the model being built gives `model_ok` and `of_model` of C97 and C98; its view `seen` commutes with add_mesh, so that C40 applies; pictures are files with distinct names, and loading looks at files one by one |
| C102 | each filter is undone byte by byte; samples are quotients of the number that a row spells; the passes of an interlaced picture are lattices, and the pixels that are done an invariant; the loop over chunks is a relation `runs` that each chunk extends; for any file, an invariant of the loop |
| C103 | the state stands for the bits that are left, as a number and a count (`at_bits`), past the end too; the fixed tables are checked by computation for all 512 entries; other tables by intervals of codes in units of 2^-15, which do not meet, so that no entry is written twice (Zlib/Canon.v); tokens and blocks by induction on the relations |

## What is not modelled at all

Plotting and visualisation (`plot_pr`, `to_surface`, `visualize_mesh`, `show`),
command line parsing, logging output, docker and installation scripts, the website,
the third-party sources beyond the parts named above, floating point rounding except
in Depth and Round, memory management of the Cython wrappers other than those of meshes,
performance.

## Axioms per theorem

Output of `Print Assumptions`, grouped by the set of axioms listed.

**Closed under the global context:** C01_matching_one_to_one, C02_matching_stable, C02_matching_unique, C03_thresholds_independent, C04_pairs_persist_refuted, C04_threshold_monotone, C05_category_association, C05_key_error, C05_same_category, C06_ap_bounds, C06_compute_ap_bounds, C06_compute_ap_defined, C07_auc_returns_envelope, C07_idempotent, C07_interpolated_is_envelope, C08_ap_is_area, C08_ap_is_sum_over_correct, C08_area_unique, C09_perfect, C09_zero_iff_nothing_correct, C100_binary, C100_glued_refuted, C100_integer_refuted, C100_nan_refuted, C100_text, C100_truncated_refuted, C101_arrays, C101_bounds, C101_constructed, C101_empty_refuted, C101_far_refuted, C101_folder, C101_folder_refuted, C101_plain_refuted, C101_roundtrip, C102_crc_refuted, C102_depth_refuted, C102_palette_refuted, C102_png, C102_reads, C102_safe, C102_writer, C103_bytes, C103_distance_refuted, C103_ends_refuted, C103_inflates, C103_inflates_raw, C103_png, C103_safe, C103_store, C10_order_irrelevant, C10_sort_irrelevant, C10_ties_matter_refuted, C11_append_false_positive, C11_better_ranking, C11_correcting_a_detection, C11_delete_false_positive, C11_flip_to_correct, C11_swap_forward, C12_sampled_interpolated, C12_sampled_raw, C13_semantics_score_bounds, C13_semantics_score_is_mean_ap, C13_shape_score_bounds, C13_shape_score_is_mean_ap, C22_index_roundtrip, C22_injective, C22_roundtrip, C25_accepted, C25_axes_interchangeable, C25_equality, C25_from_strings, C25_roundtrip, C26_from_xml, C26_ne_never_returns, C26_raises_refuted, C26_silent_default, C34_image, C34_image_rejects, C34_keyerror_refuted, C34_known_id, C34_name, C34_negative_pixel_refuted, C34_unknown_id, C35_merge, C35_partial_texture_refuted, C35_replace, C35_textured_merge, C36_full_or_none, C36_general, C36_partial_refuted, C37_quadrants, C40_add, C40_copy_refuted, C40_new_storable, C40_no_vertices, C40_roundtrip, C40_roundtrip_from, C40_stale_texture_refuted, C41_color_refuted, C41_errors, C41_update, C41_update_materials, C42_default_offset_refuted, C42_errors, C42_pack, C42_succeeds, C46_access, C46_constructor, C46_constructor_errors, C46_merge, C49_constructor, C53_all, C53_archive, C53_downloaded, C53_extracted, C53_extracted_stays, C53_files, C53_mark, C53_other_names, C53_report, C53_space, C53_success, C53_three_requests, C54_killed, C54_poisoned, C54_recovery_refuted, C54_short_answers, C55_always_same_refuted, C55_collector, C55_lost_outcome, C55_nested, C55_outcome, C55_runs_uncollected, C55_same, C55_same_collector_refuted, C56_caller, C56_default_values, C56_defaults, C56_evaluator, C56_follows, C56_mesh_always_raises_refuted, C56_mesh_needs_settings, C56_mesh_with_defaults, C56_shared, C56_stale, C65_built, C65_collision_refuted, C65_save, C66_color_refuted, C66_dual_iff, C66_dual_new, C66_dual_refuted, C66_from_mesh_refuted, C66_same_material, C67_built, C67_roundtrip, C68_buffers_refuted, C68_extension, C68_no_material_refuted, C68_number_refuted, C68_relative_lost, C68_relative_refuted, C71_sum, C71_sum_empty, C72_thin, C72_thin_errors, C73_comments, C73_read, C73_roundtrip, C73_write, C74_double_refuted, C74_empty_refuted, C74_misaligned_refuted, C74_missing_refuted, C74_no_vertex_refuted, C74_order_refuted, C74_truncated_refuted, C75_errors, C77_new, C78_matches, C78_scores, C79_best, C79_matches, C79_semantics, C79_shape, C80_correct_refuted, C80_low, C80_matches, C80_unchanged, C80_useless, C84_channels_refuted, C84_cloud_images, C84_cloud_images_refuted, C84_columns_refuted, C84_copy, C84_from_mesh_color, C84_from_mesh_rgba_refuted, C84_gaps_refuted, C84_general, C84_general_accepts, C84_general_copy, C84_large_refuted, C84_refused, C84_texture, C84_texture_kept, C84_texture_rgba_refuted, C84_view, C86_guard, C86_guard_refuted, C86_same_size, C87_own, C88_convert, C88_default, C88_default_refuted, C88_transform_refuted, C88_visible, C89_at_most_one_refuted, C89_average_precision, C89_curve, C89_operations, C89_perfect_is_one_refuted, C89_rounding, C89_sampled, C90_association, C90_default_thresholds, C90_exact_overlap_refuted, C90_recall_sample_refuted, C90_recall_samples, C91_at_most_one_refuted, C91_same_as_exact, C91_semantics_score, C91_shape_score, C93_class, C93_construct, C93_exception, C93_leak_refuted, C93_merge, C93_no_leak, C93_null_refuted, C93_primitives, C93_safe, C93_second_init, C93_self, C93_self_refuted, C93_separate, C93_textured_merge, C94_raises, C95_backslash_refuted, C95_base64_decode, C95_base64_roundtrip, C95_base64_standard, C95_blank_refuted, C95_cut, C95_data_uri, C95_embed, C95_embed_empty_refuted, C95_external, C95_fallback_refuted, C95_header_refuted, C95_line_break_refuted, C95_missing, C95_names, C95_root_refuted, C95_save_load, C96_accepts, C96_cut, C96_cut_refuted, C96_exact, C96_fuel, C96_lenient_refuted, C96_metadata_brace, C96_metadata_errors, C96_metadata_reads, C96_metadata_roundtrip, C96_number, C96_only_overflow, C96_overflow, C96_printable, C96_roundtrip, C96_serialize, C96_stable, C97_again, C97_extras_refuted, C97_lost_refuted, C97_parameter_refuted, C97_primitive_refuted, C97_reload, C97_stride, C97_stride_refuted, C97_unlit_refuted, C97_unloadable, C98_again, C98_close, C98_exact, C98_first, C98_float, C98_float_exists, C98_largest_refuted, C98_latin1_refuted, C98_range, C98_reload, C98_same_refuted, C98_short, C98_tail, C98_twice, C98_unloadable, C98_written, C99_channel_refuted, C99_file, C99_file_refused, C99_invalid_refuted, C99_lost, C99_means, C99_optional_refuted, C99_refused, C99_sane, C99_unique.

**`ClassicalDedekindReals.sig_forall_dec`:** C29_array_versions, C46_merge_empty_refuted, C46_merge_refuted, C49_settings_refuted, C63_any_indices, C63_mesh_cube_refuted, C71_register, C71_register_refuted, C71_sum_refuted, C71_transform, C82_column, C82_from_surreal_keys, C82_number_type_refuted, C82_outcomes, C82_surreal_translation_refuted, C94_from_mesh, C94_material_refuted, C94_move_raises, C94_open3d, C94_rotate, C94_roundtrip, C94_rows_dropped, C94_rows_refuted, C94_textured_roundtrip, C94_transform, C94_uv_dropped.

**`ClassicalDedekindReals.sig_forall_dec`, `FunctionalExtensionality.functional_extensionality_dep`:** C14_bounds, C14_empty, C14_monotone, C14_symmetric, C16_cache_transparent, C18_constructor, C18_empty_neutral_refuted, C18_merge_empty, C18_merge_least, C18_merge_order_and_grouping, C19_empty_mesh_adds_origin, C19_empty_mesh_refuted, C19_meshes_tight, C19_point_cloud_tight, C19_tight_unique, C20_closed, C20_normals, C20_volume, C21_mesh_is_box_refuted, C21_mesh_volume, C21_never_the_box, C23_bounds_tight, C23_empty_grid_bounds, C23_exact_cover, C23_rejections, C24_accumulates, C24_accumulates_refuted, C24_exact_step, C24_rejected_unchanged, C29_pose_group, C33_clipping, C33_code_roundtrip, C33_documented_refuted, C33_expansion, C33_expansion_monotone, C33_map_roundtrip, C33_maps, C33_order_reversing, C33_quantisation, C33_total, C38_origin, C44_again, C44_bad_metadata, C44_load, C44_load_errors, C44_roundtrip, C44_save, C44_save_errors, C44_wide_rgb_refuted, C45_distinct, C45_face, C45_onto, C45_outside, C47_empty_category, C47_empty_id, C47_gltf_models, C47_keeps_files, C47_last_id_wins, C47_load_pure, C47_missing_setting, C47_never_overwrites, C47_relative_refuted, C47_roundtrip, C48_accepted, C48_bad_xml, C48_element, C48_element_errors, C48_geometry, C48_header, C48_loaded, C48_no_elements, C48_no_file, C48_not_a_rotation, C49_identity, C49_moves, C49_twice, C49_unsaveable, C51_default, C52_swapped, C59_pose_formats, C60_posed_bbox, C60_quick_reject, C60_similarity_bounds, C60_similarity_self, C61_voxelizer_covers, C64_other_sizes, C64_textured_cube, C71_register_frame, C71_transform_back, C72_thin_refuted, C75_roundtrip, C75_suffix_refuted, C75_two_files, C76_above_below, C76_around, C76_continuous, C77_multi, C77_rgbd, C77_rgbdci, C82_default, C82_from_surreal, C82_matrix, C82_surreal_roundtrip, C83_on_left, C83_on_left_columns_refuted, C83_on_left_degenerate, C83_on_left_invariant, C83_on_left_reverse, C85_almost_equal, C85_assertion, C85_comparisons_refuted, C85_equal, C85_points, C85_symmetric_refuted, C85_tolerances, C85_transitive_refuted, C86_box_refuted, C86_dicts, C86_dicts_raise, C86_ignored, C86_objects, C86_reflexive, C86_symmetric_refuted, C92_columns, C94_compose, C94_identity, C94_inverse, C94_rotate_is_transform, C94_three_rows_refuted.

**`ClassicalDedekindReals.sig_forall_dec`, `ClassicalDedekindReals.sig_not_dec`, `FunctionalExtensionality.functional_extensionality_dep`:** C14_identical, C14_one_iff, C14_value, C15_boxes_irrelevant, C15_mesh_similarity, C15_shortcut_sound, C16_pair_symmetric, C16_pair_value, C16_pair_zero, C16_reported, C17_colorless_always_zero, C17_defined, C17_positive_thresholds_safe, C17_symmetric, C17_total_refuted, C29_pose_action, C30_angles_add, C30_axis_rotations, C30_rotations_closed, C31_matrix_to_quat, C31_quat_roundtrip, C31_quat_to_matrix, C32_euler_to_matrix, C38_long_edges, C39_face_normals, C39_vertex_normals, C43_color_range, C43_density, C43_in_box, C43_missing_uv, C43_no_meshes_refuted, C43_rigid, C43_same_samplers, C43_samples, C43_texture_refuted, C43_uniform, C45_any_size_refuted, C45_cloud, C45_cloud_distinct, C45_errors, C50_by_voxels, C50_converts, C50_empty_model, C50_own_type, C50_pairs, C52_submission_scored_refuted, C58_axis_angle, C58_axis_angle_axes, C58_enu_camera, C58_maya_camera, C62_example, C78_mesh_track, C78_perceptual, C79_mesh, C79_mesh_refuted, C79_points, C82_roundtrip, C82_same_rotation, C82_vector, C83_unitize, C83_unitize_direction, C87_array, C87_default, C87_default_refuted, C87_inverse_refuted, C87_origins, C87_rotation, C87_translation, C87_values, C92_center, C92_columns_refuted, C92_corners, C92_point, C92_read_only_refuted, C92_rows, C92_volume, C94_normals_move, C94_normals_rows, C94_rigid.

**`ClassicalDedekindReals.sig_forall_dec`, `ClassicalDedekindReals.sig_not_dec`, `Classical_Prop.classic`, `FunctionalExtensionality.functional_extensionality_dep`:** C27_angle_exists_unique, C27_least_angle, C27_spherical, C27_symmetric_and_frame_free, C27_symmetry_invariant, C27_unlisted_refuted, C27_zero_iff, C28_identical_refuted, C28_x_axis, C28_x_least_refuted, C28_y_axis_refuted, C28_z_axis_refuted, C32_euler_roundtrip, C32_gimbal_lock_refuted, C32_matrix_roundtrip, C32_quat_roundtrip, C51_bounds, C51_formula, C51_identical, C51_no_floor, C51_one_iff, C57_identical_poses, C57_pose_error, C78_perceptual_tilt_refuted, C78_pose_cylindrical_refuted, C78_pose_error, C79_pose, C81_box_report, C81_partial_report_refuted, C81_surface_report, C81_tool_errors, C81_tool_report, C81_voxel_number_refuted.
