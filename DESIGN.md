# A Rocq model of py-edge-eval

## Method

* Every modelled function is a total, computable Gallina function that follows the Python/C++/Cython
  source branch by branch.  Exceptions are values (`Err ...`); files, process pools, clocks and random
  generators are explicit arguments (state, schedule, history, stream) over which the theorems quantify.
  A loop whose length is not known in advance takes fuel; the theorems show that some fuel always
  suffices and that the result does not depend on it.
* `Model*.v`: definitions only, each with the file and lines of `/repo` it models and, in the header,
  what is simplified.  `Spec*.v`: the vocabulary of the theorem statements, written without the model's
  helpers (declarative: "is a matching", "is connected to", "is the best", ...).  `Proofs*.v`: lemmas.
  `Properties*.v`: the theorems listed in MANIFEST.json, `Print Assumptions` for them, and `Example`s that
  show a concrete non-trivial case meeting the hypotheses.
* A property that is false of the code is stated and refuted with a witness (theorem suffix `_refuted`);
  these are findings, listed below.  The part that does hold is proved beside it.
* Wrong programs: `seeded/LOG.jsonl` records every edit of the model tried against the theorems, which
  theorems failed, and which were tightened as a consequence.

## Per property: what is modelled, how it is proved

| id | model | proof | not covered |
|---|---|---|---|
| C01 | ModelMetrics: recall, precision, f1 over Q | field algebra, order | rounding: C56 |
| C02 | the double loop of interpolated_max_scores as a fold | fold invariant (maximum, attained, first) | rounding: C56 |
| C03 | calculate_metrics, sums over samples | permutation induction | |
| C04, C39 | ModelProgress: pool = chunks completing in any order; ordered buffer; bar events | induction over the schedule | worker crashes, ETA text |
| C05 | first argmax per image, sums of the chosen counts | induction | rounding: C56 |
| C06, C07 | AP (101 levels, np.interp) and AUC over Q | sums; piecewise linear curve specified as a relation | |
| C08 | check_thresholds as a sum type of argument kinds | arithmetic of linspace | rounding: C59 |
| C09 | ModelText/ModelResults: `%g`-style formatting, float parsing, files as a map | round trip on texts | code points above 255 |
| C10 | reading the saved files back for plotting | as worded refuted (9 against 8 columns); what is accepted is proved | |
| C11-C14 | ModelEval: threshold, thin, NMS, match, count; absent-class branch | counting lemmas over the C17 contract | |
| C15, C16 | kill_internal, ignored border | pointwise on pixels; uint8 wrap modelled | |
| C17, C18, C20 | ModelMatch: graph construction, solver, decoding, assertions | invariants of the graph and of decode | rounding: C57, C58 |
| C19 | kofn.cc, both strategies, any random stream | induction | |
| C21-C24 | ModelThin: both thinning routines, literal tables | 512-entry sweep lifted to all images, decreasing measure, local connectivity | |
| C25-C27, C31 | ModelLabels: encodings, conversions with dtype wrap | bit lemmas, pointwise | |
| C28-C30, C32, C48 | ModelEdges: mask2bdry over the exact Euclidean distance | pointwise; real-number reading in ProofsEdgesReal | the libraries' distance transforms are taken to be exact |
| C33, C34 | ModelNMS: benms.cc, conv_tri, fast_nms for arbitrary cos/sin/arctan functions | index arithmetic, convex weights | rounding (nms itself in doubles: C77) |
| C35, C36 | ModelEvaluator: evaluator objects as state machines | induction over histories of calls | |
| C37 | ModelCLI: the helper scripts from the argument texts on | parsing lemmas, case analysis | argparse itself |
| C38, C54 | the per-image and per-category routines from decoded files to counts and scores | composition of the above | |
| C40-C44 | ModelUtils: scandir, Timer, loggers, split files, NMS output names | induction over trees / histories | symbolic link cycles |
| C45 | f1 iso-curves | field | |
| C46 | ModelCSA: csa.hh, the code that is compiled | epsilon-optimality invariant, potential argument for termination | rounding: C57 |
| C47 | erand48 as an LCG, seeding, i32 | number theory | |
| C49-C53 | ModelSamples/ModelConvert/ModelSBD: file names, readers, converters | file map algebra, composition with C28-C32 | image and MAT codecs |
| C55 | ModelPlot: files to curves, printed lines, legend | composition | drawing |
| C56 | ModelFloat: the scores in binary64 (Flocq) | error analysis | AUC |
| C57 | ModelCSA64/ModelMatch64: the solver in binary64 | epsilon-optimality with an error budget | beyond N^2 C = 2^41 termination and near-optimality are not shown |
| C58 | ModelMatchF: correspond_pixels and matchEdgeMaps with every number a double | error analysis by relative errors; the rounded run is a run of ModelMatch64 for nearby squares | int overflow of the outlier weights is not modelled here (C69 bounds it in the exact model) |
| C59 | ModelThreshF: check_thresholds, pred / 255 and pred >= thresh in doubles | absolute errors 9u against a gap of 1/(255(n+1)); ties by exact computation | float thresholds given as a list are not rounded here |
| C60 | ModelEvalF: the evaluators of one image and of a benchmark on top of C56, C58, C59 | the rounded decisions (threshold, tolerance, kill buffer, scaled size) equal the exact ones, then as C11 to C15 | no non-maximum suppression; dyadic scales; beyond the size bound of C57 termination is not shown |
| C61 | ModelSession: the BSDS script with any number of processes, from options and files to result files | composition of C37, C49, C11, C13 and C09 in a writer of text files over a random stream | log file, printing and results.txt; the output directory derived from the clock |
| C62 | ModelSession: evaluate over categories and the SBD and Cityscapes scripts | the loop over categories as a session; result files of different categories are disjoint; composition of C36, C37, C44, C49, C54 | PrettyTable (a parameter), log file, printing |
| C63 | ModelSamples (`workers`, `outcomes`, `gather`, `pooled`, `each`) and ModelSession (`plan`): the loops over samples in several processes, under any assignment of samples to workers and any completion order | the delivered list does not depend on the completion order; then induction over the samples with an invariant of every worker's generator | fork is assumed as the start method; a worker killed from outside |
| C64 | ModelJobs: conversion jobs as programs of reads and writes, interleaved by an arbitrary schedule; a file is absent, partly written or complete | invariant of the pool: every job is where it would be alone, files are split among the jobs; then the contents of C51, C52 and C53; jobs that must fail stay so under every schedule | file names in a listing are distinct; json2labelImg is a parameter; directories are created as needed |
| C65 | ModelCompare: test_file, differences, test_edges, test_against_matlab | path algebra of C43 for the two replacements; count of differing entries as the length of a duplicate-free list of exactly the differing entries | numpy's comparison of arrays of different shape is a parameter |
| C66 | ModelTools: tofile, fromfile, binary_multilabel_decoding | words by induction on the bytes, bits by div/mod; round trip through C25 | little-endian machine; a file is its list of bytes |
| C67 | ModelTools: color_map with its inner loop | invariant of the bit loop, then bitwise extensionality | normalized map in exact quotients |
| C68 | ModelDirs: makedirs (Lib/os.py), mkdir_or_exist, the jobs of C64 with their directories, trees with directories and files, interleaving one system call at a time | a plan (which paths are directories, which files) as invariant; each makedirs call keeps the property that it ends well in every later tree, by induction on the path; simulation of the jobs by those of C64 | paths are texts (no `..`, links, tilde, inner `.`); mkdir is atomic; no permissions, no full disk |
| C69 | ModelInts: the int and unsigned values of matchEdgeMaps, its arrays and the CSA interface as functions of the inputs of ModelMatch | counting (nodes are edge pixels, edges per node at most the offsets in the disc), kinds of arcs, monotone square roots; the discs of the data sets are computed | exact model (no rounding of maxDist and outlierCost); the solver's own fields are long and double |
| C70 | ModelArrays: matchEdgeMaps and kOfN with the Array2D/Array1D objects (wrapping unsigned sizes and indices, cells that may be unwritten), every read, write and assertion in program order | every array is described by a table after each loop (loop invariants over the pixels, offsets, draws, rows); then equality with ModelMatch, whose safety is C17–C20 | kOfN writes through its pointers (offsets into the buffer); the solver is that of C71, exact or (ModelArrays64) in doubles; ints unbounded (C69), distances and cost as in ModelMatch |
| C71 | ModelCSAMem: csa.hh with its malloc'd arrays (cells that may be unwritten), pointers as indices, the stack, best[3] and next_best, every read and write in program order | simulation: a relation between memory and the state of ModelCSA (arrays hold the functions, stack cells hold the active list, best cells the candidate list), kept by every step; layout of the arcs by loop invariants over parse; safety and result then follow from C46 | exact prices (ModelCSAMem) and doubles (ModelCSAMem64, the same proof over ModelCSA64); struct fields are separate arrays; the C arithmetic of addresses is not modelled |
| C72 | ModelIter: the generator as a state machine (fresh, paused, finished) driven by requests, closes and throws; the for loop over it | induction over histories; the loop refines ModelProgress | reentrant use of a running generator; exceptions while writing to the file |
| C73 | ModelIter: the geometry of the bar, with Flocq's binary64 rounding | monotonicity and error bounds of rounding; the gap below an integer | rate, elapsed time and ETA are an arbitrary text; characters are one column wide |
| C74 | ModelPrintLog: print_log over ModelUtils' registry, with the standard library's effective level, propagation and last-resort handler | invariants of the registry over histories; the dotted prefixes of a name | filters, logging.disable, other configuration of the loggers |
| C75 | ModelLinks: symlink as three system calls, any number of processes, any schedule; isfile through links | invariants of all reachable states | permissions, links among the directories on the way |
| C76 | ModelGeneric: datasets/generic_binary.py over Python values (array or list) | by cases; refinement to ModelEval for arrays | parsing of .mat files |
| C77 | ModelNMSF: benms.cc with every operation rounded to binary64 | error bounds for the clamp and the interpolation; monotone rounding | infinities and NaN; libm cos and sin are parameters |

Not modelled at all, with the reason: `_lib/include/{Matrix,Point,Exception,String}.hh` and their
sources (containers and text output without decisions of their own; the accesses the code makes are in
the models of the callers; `Array.hh` is in ModelArrays), `Matrix.cc` (unused linear algebra), drawing in matplotlib, `setup.py`,
package `__init__`s, tests and MATLAB scripts.

## External behaviour taken as given

numpy (1.x casting rules), the *exact* Euclidean distance transform of scipy and of OpenCV with
`DIST_MASK_PRECISE`, nearest-neighbour resizing of PIL and cv2 by their documented formulas, image and
MAT-file codecs (a file is its decoded content), `multiprocessing.Pool.imap`/`imap_unordered` (results
delivered by index / in completion order; workers are forked, so each starts from a copy of the parent's
random generator), `logging` handler propagation, `erand48`.  C++ `assert`s are
kept (`Err AssertionError`); a null dereference or an uncaught C++ exception is its own outcome.  `int`
is unbounded unless the model says otherwise.

## Trusted base

* Coq 8.16.1's kernel (and its VM, used by `vm_compute` in examples and table sweeps).
* No axioms of our own, no `Admitted`, no functors, no switched-off checks.
* `Print Assumptions`: every theorem in MANIFEST.json is "Closed under the global context" except

  | theorems | standard-library axioms |
  |---|---|
  | `reported_cost` (C20), `boundary_is_distance_band` (C28) | `ClassicalDedekindReals.sig_not_dec`, `ClassicalDedekindReals.sig_forall_dec`, `FunctionalExtensionality.functional_extensionality_dep` |
  | all theorems of C56 to C60, C70 and C71 that speak about doubles (names with 64), and of C73 and C77 | the same three and `Classical_Prop.classic` |

  These come from `Coq.Reals` (and Flocq, which adds none of its own).  The opaque symbols of
  `Coq.Reals.Rdefinitions` and `Coq.ssr.ssrunder.Under_rel` that a checker lists beside them are module
  sealings of the standard library (loaded with it), not assumptions made by the theorems.
* The reading of the source into the model (cited line by line) and the external behaviour above.

## Findings (false of the code, or surprising)

Matching and solver
* A prediction identical to the ground truth is not always fully matched from 7 pixels on (outlier-outlier
  arcs have degree 6); maps with at most 6 matchable pixels on one side are matched maximally.
* Signed overflow (C69): `result_cost += ...` in csa.hh:424 overflows on ordinary full-size Cityscapes pictures (harmless in practice: never
  read); `ow * multiplier` (match.cc:242) overflows when outlier_cost * max_dist * diagonal exceeds 214749 pixels; the size check of
  the arrays is unsigned too, so beyond the sizes of C69 nothing would notice.
* The result depends on the clock: the generator is seeded from the time, two starts 524288 us apart in
  the same second get the same seed, and forked workers share a generator state.
* The reported cost is 0 when nothing is matchable; empty arrays abort; a graph whose costs are all zero
  makes the solver follow a null pointer.
* In doubles the solver returns a perfect matching whenever it returns; optimality is only guaranteed for
  N^3 C <= 2^40 (within one unit for N^2 C <= 2^41), and realistic Cityscapes images exceed that.
* A pixel pair exactly at the tolerance is accepted or not depending on rounding: at 0.02 a 300x500 (or 200x500)
  image rejects it, a 400x500 image accepts it.  An outlier_cost within 14 ulp of 1, or a subnormal max_dist, can
  trip `assert outlierCost > maxDist` although the argument check let it pass.

Counts
* A ground truth scaled to 0/255 multiplies sum_r; a uint8 segmentation breaks kill_internal for labels 254
  and 255; the SBD evaluation masks the wrong class (off by one) in kill_internal.
* With thinning, sum_p is not monotone in the threshold.
* OIS can be below ODS; the ODS score need not be attained at a listed threshold; AP is at most 100/101;
  the AUC of a perfect detector is 0.
* In binary64 `np.arange(0, 1, 0.01)[35] > 0.35`, so a recall of exactly 0.35 misses AP level 35.

Files and scripts
* `symlink(overwrite=True)` removes before it links: a crash in between leaves no link, and overlapping calls can raise (C75).
* An INFO message printed to a name that starts with an initialised name without being its child is lost (C74).
* `bsds_eval_single` of datasets/generic_binary.py hands the list of ground truths to the single-GT function, whose `gt.any()` fails on a
  list: it raises AttributeError for every sample (C76; nothing in the repository calls it).
* The saved overall file has 9 columns and the plotting code expects 8; algorithms with different numbers of
  usable thresholds cannot be plotted together; sample names with spaces shift columns.
* `evaluate_reanno_sbd` always raises TypeError; the SBD script ignores `--max-dist` and `--pred-suffix`; Cityscapes `pre-seal`
  without `--nonIS` fails an assertion; a single threshold "0.5" is rejected by the command line.
* A rejected `set_eval_params` may leave the object partly changed; evaluating before it is called is an
  AttributeError; an invalid category fails after the earlier ones were saved.
* Pixels exactly on a threshold may be lost to rounding: with 23 thresholds, value 85 against 8/24 (not with the
  default 99).
* nms_results uses only the first character of a name (collisions, last one wins).
* Absolute sample names ignore root and category; `no_split_dir` can merge samples; `replace("gtFine", ...)`
  also rewrites the dataset root; half-scale ground truth differs from full ground truth evaluated at 0.5.
* SBD: images with fewer than 22 rows are rejected, instances of unlisted categories are silently dropped by
  one loader and asserted against by the other, `reanno_val.txt` lists only the raw names, a form feed in a
  name makes converter and evaluator disagree.
* `mask2onehot` rejects images with fewer rows than labels; converting to `.bin` always fails; a BSDS file
  `.MAT` is listed but then not found, so the run stops; without a split directory the BSDS constructor hides the
  error and `evaluate` raises a TypeError.
* The comparison with reference files reads converted TIFF files as if they were the three-channel PNG files: every training file counts as
  a miss; without `--nonIS` it is refused.
* scandir lists files inside hidden directories; the logger prefix test treats "pyEdgeEval2" as a child;
  a child logger initialised before its parent emits twice; a second log file is ignored; Timer uses a
  clock that can go backwards.
* With several processes every loop over samples starts from the same random generator (the workers copy it,
  the parent's never advances), so graph degrees of freedom repeat from category to category; with one
  process the generator runs on, and the result of a category depends on the ones evaluated before it.
