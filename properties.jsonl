{"id": "C01", "title": "Precision, recall and F1 are well defined and in [0,1]", "statement": "For every table of match counts with 0 <= count <= sum, the reported recall, precision and F1 at every threshold are between 0 and 1, F1 lies between min and max of precision and recall, F1 is 0 exactly when precision or recall is 0, is 1 exactly when both are 1, is monotone in each, and a zero denominator yields 0 instead of a division error.", "quantifier": "all count tables (any number of thresholds, any non-negative counts)", "why_tests_cant": "the count space is unbounded and the zero-denominator corner cases interact; a test only samples a few tables", "anchors": ["pyEdgeEval/common/metrics.py: recall, precision, f1, compute_rec_prec_f1"]}
{"id": "C02", "title": "ODS best score is the maximum over the interpolated PR curve", "statement": "The best (threshold, recall, precision, F1) reported for the dataset is attained at some interpolated point between two consecutive thresholds (or at the first threshold), its F1 is >= the F1 at every listed threshold and at every interpolation point, the first attaining point wins, and its F1 is the F1 of the reported recall and precision.", "quantifier": "all threshold lists and all recall/precision lists of the same length >= 1", "why_tests_cant": "maximality over all points of arbitrary curves is a universally quantified claim", "anchors": ["pyEdgeEval/common/metrics.py: interpolated_max_scores"]}
{"id": "C03", "title": "Dataset aggregation depends only on the multiset of per-sample counts", "statement": "The per-threshold results and the overall ODS/OIS/AUC/AP of a set of samples are those of the summed counts; they do not change when the samples are listed in a different order, and sample_results holds one row per sample in the given order.", "quantifier": "all lists of samples and count tables, all permutations", "why_tests_cant": "there are factorially many orders; a test can try only a few", "anchors": ["pyEdgeEval/common/binary_label/calculate_metrics.py: calculate_metrics", "pyEdgeEval/common/multi_label/calculate_metrics.py: calculate_metrics"]}
{"id": "C04", "title": "Parallel evaluation equals sequential evaluation", "statement": "For every number of processes, chunk size and worker completion order, evaluating the samples with nproc > 1 returns exactly the list of results that sequential evaluation returns (ordered mode); the unordered mode returns a permutation of it.", "quantifier": "all task lists, pool sizes, chunk sizes and worker schedules", "why_tests_cant": "the schedule space is unbounded and tests cannot force every completion order", "anchors": ["pyEdgeEval/utils/progressbar.py: track_parallel_progress, track_progress", "pyEdgeEval/common/*/calculate_metrics.py"]}
{"id": "C05", "title": "Per-image best (OIS) is the best threshold of that image", "statement": "Each sample row reports the lowest threshold index at which that image's F1 is maximal, together with that threshold's recall, precision and F1, and the OIS counts are the sums of the counts at those indices.", "quantifier": "all samples and count tables", "why_tests_cant": "argmax with ties over arbitrary data is universally quantified", "anchors": ["pyEdgeEval/common/*/calculate_metrics.py"]}
{"id": "C06", "title": "Average precision is in [0,1) and grows with the curve", "statement": "AP is always between 0 and 100/101, equals 100/101 for a perfect detector (so AP = 1 is unreachable), and never decreases when any precision value is raised with the recalls unchanged.", "quantifier": "all recall/precision lists with values in [0,1]", "why_tests_cant": "bounds and monotonicity range over all curves", "anchors": ["pyEdgeEval/common/*/calculate_metrics.py: AP computation"]}
{"id": "C07", "title": "AUC is the mean height of the precision-recall curve", "statement": "If at least two thresholds have different recalls, the reported AUC is the mean, over the 100 recalls 0, .01, ..., .99, of the height of the precision-recall curve: linear interpolation between neighbouring distinct recalls (each with the precision of the first threshold reaching it), 0 outside the range of recalls. It lies in [0,1], grows with precision, and is 0 when all recalls are equal (so it is 0, not 1, for a perfect detector).", "quantifier": "all recall/precision lists with values in [0,1]", "why_tests_cant": "interpolation with ties and out-of-range recall has unboundedly many shapes", "anchors": ["pyEdgeEval/common/*/calculate_metrics.py: AUC computation"]}
{"id": "C08", "title": "Threshold specification normalisation", "statement": "An integer n >= 1 gives exactly n strictly increasing, equally spaced thresholds inside (0,1), symmetric about 1/2; n = 0 gives an empty list; n = -1 and n < -1 are errors; a float or a one-dimensional list is used as given; every other kind of value is rejected.", "quantifier": "all threshold arguments", "why_tests_cant": "the property ranges over all integers n and all lists", "anchors": ["pyEdgeEval/common/utils.py: check_thresholds"]}
{"id": "C09", "title": "Saved result files can be read back", "statement": "Each value written to a result file is read back within half a unit in the sixth decimal; the number of columns written is 5 (sample), 4 (threshold) and 9 (overall), columns are separated, and the order of columns and rows is that of the results.", "quantifier": "all result tables and all rational values", "why_tests_cant": "formatting of every value (including widths above the field) cannot be enumerated", "anchors": ["pyEdgeEval/common/binary_label/io.py", "pyEdgeEval/common/multi_label/io.py"]}
{"id": "C10", "title": "PR-curve plotting accepts the saved overall result file", "statement": "The overall result file written by the evaluation can be loaded by the PR-curve visualisation. (The model refutes it: nine columns are written, eight are accepted.)", "quantifier": "all overall results", "why_tests_cant": "the statement concerns every saved file, and the reader and writer are tested separately if at all", "anchors": ["pyEdgeEval/visualization/pr_curve.py", "pyEdgeEval/common/binary_label/visualize.py", "pyEdgeEval/common/multi_label/io.py: save_overall_metric"]}
{"id": "C11", "title": "Counts of one image are consistent (single ground truth)", "statement": "For each threshold 0 <= count_r <= sum_r and 0 <= count_p <= sum_p; sum_r is the number of ground-truth edge pixels, sum_p the number of predicted pixels after thresholding and thinning, and count_r = count_p (matching is one to one).", "quantifier": "all predictions, ground truths, thresholds and distance tolerances", "why_tests_cant": "ranges over all images and all matchings", "anchors": ["pyEdgeEval/common/binary_label/evaluate_boundaries.py: evaluate_boundaries_threshold", "pyEdgeEval/common/multi_label/evaluate_boundaries.py"]}
{"id": "C12", "title": "Counts of one image are consistent (several annotators)", "statement": "With several ground truths, count_r and sum_r accumulate over annotators, a predicted pixel counts once in count_p however many annotators match it, count_p <= min(sum_p, count_r), max over annotators of their matches <= count_p, and the order of annotators does not matter.", "quantifier": "all lists of annotations", "why_tests_cant": "ranges over all annotation sets and matchings", "anchors": ["pyEdgeEval/common/binary_label/evaluate_boundaries.py: evaluate_boundaries_threshold_multiple_gts"]}
{"id": "C13", "title": "Raising the threshold never adds predicted pixels", "statement": "Without thinning, sum_p is non-increasing in the threshold, the predicted pixel set shrinks, and a threshold <= 0 keeps every pixel of a non-negative map.", "quantifier": "all predictions and pairs of thresholds", "why_tests_cant": "monotonicity over all maps and threshold pairs", "anchors": ["pyEdgeEval/common/*/evaluate_boundaries.py"]}
{"id": "C14", "title": "Absent class and empty ground truth branches", "statement": "In multi-label evaluation with skip_if_nonexistent and no ground-truth edge all counts are zero; without skipping and with empty ground truth, every predicted pixel is a false positive (sum_p counts them, the other counts are 0), and the correspondence solver is not called.", "quantifier": "all predictions and thresholds", "why_tests_cant": "ranges over all images", "anchors": ["pyEdgeEval/common/multi_label/evaluate_boundaries.py: evaluate_boundaries_threshold"]}
{"id": "C15", "title": "kill_internal removes exactly the interior false positives", "statement": "With a boolean segmentation, a predicted pixel is removed iff it lies inside the segmentation mask and its Euclidean distance to every ground-truth edge pixel exceeds max_dist times the image diagonal; no pixel is added, no pixel within tolerance of the ground truth is removed, and applying it twice equals applying it once.", "quantifier": "all predictions, ground truths, masks, tolerances", "why_tests_cant": "geometric property over all images", "anchors": ["pyEdgeEval/common/multi_label/options.py: kill_internal_prediction"]}
{"id": "C16", "title": "The ignored image border", "statement": "For every border width b >= 0, after border masking a pixel is unchanged iff it is at least b pixels away from all four image sides, and equals the ignore id otherwise (so images not larger than twice the border are erased); masking twice equals masking once. A negative width is not 'no border': it erases almost everything.", "quantifier": "all images and border widths", "why_tests_cant": "slice corner cases over all sizes and widths", "anchors": ["pyEdgeEval/common/multi_label/utils.py: add_ignore_pixel"]}
{"id": "C17", "title": "Correspondence is a partial one-to-one matching within tolerance", "statement": "The call always returns. Every matched pixel pair consists of an edge pixel of the first map and one of the second whose distance is at most the tolerance; no pixel is used twice; unmatched pixels have code 0; the two returned match maps are mutually inverse; numbers of matched pixels are equal in both maps. When one map has at most six edge pixels no correspondence matches more pixels (outlier cost at least 7; the default is 100) and identical maps match completely; from seven pixels on identical maps need not match completely.", "quantifier": "all pairs of edge maps of equal shape, all tolerances, all random streams", "why_tests_cant": "ranges over all images and over the internal random graph construction", "anchors": ["pyEdgeEval/_lib/src/match.cc: matchEdgeMaps", "pyEdgeEval/_lib/correspond_pixels.pyx"]}
{"id": "C18", "title": "Correspondence never aborts inside the graph construction", "statement": "For every input the bipartite graph built for the assignment solver has in-range endpoints, no duplicate pair, the announced number of edges and contains a perfect matching, so the internal assertions before the solver cannot fail. Its nodes are the pixels with a counterpart within tolerance plus one spare per pixel of the other map; its arcs are exactly the pixel pairs within tolerance at 100 times their distance rounded, up to six outlier arcs per node at the rounded-up outlier cost, and the 100 times dearer overlay.", "quantifier": "all pairs of edge maps, all random streams", "why_tests_cant": "assertion freedom for all inputs and random choices", "anchors": ["pyEdgeEval/_lib/src/match.cc: matchEdgeMaps", "pyEdgeEval/_lib/src/kofn.cc: kOfN"]}
{"id": "C19", "title": "k-of-n sampling yields a k-subset", "statement": "For all k <= n and every random stream the sampler returns k strictly increasing values in [0,n), so no value occurs twice.", "quantifier": "all k <= n, all random streams", "why_tests_cant": "all random streams cannot be sampled", "anchors": ["pyEdgeEval/_lib/src/kofn.cc: kOfN"]}
{"id": "C20", "title": "Degenerate correspondence inputs", "statement": "Shape mismatch, non-positive tolerance and outlier cost <= 1 are rejected with an error; arrays with no rows and no columns abort; if no pixel of the first map has a counterpart within tolerance nothing is matched and the reported cost is 0 (not the cost of the outliers); otherwise the reported cost is the outlier cost for every edge pixel left over in either map plus the distances of the matched pairs.", "quantifier": "all inputs", "why_tests_cant": "all inputs cannot be enumerated", "anchors": ["pyEdgeEval/_lib/correspond_pixels.pyx: correspond_pixels", "pyEdgeEval/_lib/src/match.cc"]}
{"id": "C21", "title": "Thinning only deletes pixels and keeps the shape", "statement": "The thinned image has the same shape as the input and every foreground pixel of the result is a foreground pixel of the input, for every iteration limit.", "quantifier": "all binary images and iteration limits", "why_tests_cant": "ranges over all images", "anchors": ["pyEdgeEval/preprocess/thin/thin.py: binary_thin", "pyEdgeEval/preprocess/thin/bwmorph_thin.py: bwmorph_thin"]}
{"id": "C22", "title": "Thinning terminates and (bwmorph_thin) reaches a fixed point", "statement": "Without an iteration limit thinning stops after at most (number of foreground pixels + 1) passes and thinning again changes nothing; whether both implementations give the same result and whether binary_thin's result is stable is decided (the early break of binary_thin refutes both).", "quantifier": "all binary images", "why_tests_cant": "termination and idempotence for all images", "anchors": ["pyEdgeEval/preprocess/thin/thin.py: binary_thin", "pyEdgeEval/preprocess/thin/bwmorph_thin.py: bwmorph_thin"]}
{"id": "C23", "title": "Thinning lookup tables are the Guo-Hall conditions", "statement": "The two literal 256-entry tables, the formulas that generate them, and the tables computed by the other implementation all remove a pixel under exactly the same neighbourhood condition (one 8-neighbour crossing, 2 or 3 neighbours, side condition), so one sub-iteration of either implementation gives the same image.", "quantifier": "all 512 neighbourhoods, all images", "why_tests_cant": "the tables are opaque literals; only exhaustive comparison lifted to all images settles it", "anchors": ["pyEdgeEval/preprocess/thin/bwmorph_thin.py: G123_LUT, G123P_LUT", "pyEdgeEval/preprocess/thin/thin.py: lut_masks, G1..G3p_LUT"]}
{"id": "C24", "title": "Thinning never erases a component", "statement": "Thinning preserves connectivity: foreground pixels that survive and were 8-connected before are 8-connected after; each foreground component keeps at least one pixel; isolated pixels stay.", "quantifier": "all binary images", "why_tests_cant": "topological claim over all images", "anchors": ["pyEdgeEval/preprocess/thin/thin.py", "pyEdgeEval/preprocess/thin/bwmorph_thin.py"]}
{"id": "C25", "title": "PNG multi-label encoding round trip", "statement": "For at most 24 classes decoding an encoded edge stack returns it; different stacks have different encodings; more than 24 classes are rejected by the encoder, while the decoder silently returns 24 channels.", "quantifier": "all binary stacks with at most 24 classes", "why_tests_cant": "2^24 codes per pixel, all image sizes", "anchors": ["pyEdgeEval/common/multi_label/edge_encoding.py: rgb_multilabel_encoding", "pyEdgeEval/common/multi_label/edge_decoding.py: decode_png"]}
{"id": "C26", "title": "TIF / bit-packed multi-label encoding round trip", "statement": "For at most 32 classes the bit-packed encoding, written as signed 32-bit, is decoded back to the same stack; different stacks have different codes; a 33rd class survives the in-memory encoding but always decodes to zero.", "quantifier": "all binary stacks", "why_tests_cant": "2^32 codes per pixel", "anchors": ["pyEdgeEval/common/multi_label/edge_encoding.py: default_multilabel_encoding", "pyEdgeEval/common/multi_label/edge_decoding.py: decode_tif, binary_multilabel_decoding"]}
{"id": "C27", "title": "Label conversion", "statement": "Every labelled pixel is mapped to its trainId, unknown ids to 255, and no pixel is converted twice (the mapping reads the original image); one-hot and multilabel conversions are mutually consistent; the one-hot guard compares against the image height (refuted for images with fewer rows than labels). The shipped tables number the evaluated classes consecutively from 0 in increasing label order.", "quantifier": "all masks and label tables", "why_tests_cant": "all masks and maps", "anchors": ["pyEdgeEval/utils/convert_formats.py"]}
{"id": "C28", "title": "Boundary extraction is exactly the distance band", "statement": "For an exact Euclidean distance transform, a pixel is marked as an edge iff the sum of its distance to the mask's complement and its distance to the mask is positive and at most the radius; hence widening the radius only adds pixels, a constant mask has no edge on the ignored side, and every edge pixel is within the radius of both the mask and its complement.", "quantifier": "all masks, ignore masks and radii", "why_tests_cant": "geometric claim over all images", "anchors": ["pyEdgeEval/utils/distance_transforms.py: mask2bdry, cv2_mask2bdry, scipy_mask2bdry, mask2internal"]}
{"id": "C29", "title": "Sequential and parallel edge conversion agree", "statement": "For semantic masks the per-class loop and the multiprocessing version produce the same edge stack for every pool size and schedule; class k of the result depends only on the pixels' membership in class k.", "quantifier": "all masks, label lists and worker schedules", "why_tests_cant": "schedules and images unbounded", "anchors": ["pyEdgeEval/edge_tools/mask2edge_loop.py: loop_mask2edge", "pyEdgeEval/edge_tools/mask2edge_mp.py: mp_mask2edge"]}
{"id": "C30", "title": "Instance-sensitive edges", "statement": "The instance-sensitive edge map of a class is the union of the class boundary and the boundaries of each of its instances; sequential and parallel versions agree when ids have five digits and disagree for four-digit ids (refuted in general).", "quantifier": "all instance masks", "why_tests_cant": "all id layouts", "anchors": ["pyEdgeEval/edge_tools/mask2edge_loop.py: loop_instance_mask2edge", "pyEdgeEval/edge_tools/mask2edge_mp.py: mp_instance_mask2edge"]}
{"id": "C31", "title": "Instance id packing is reversible", "statement": "For category ids 0..99 and fewer than 1000 instances the packed id determines category and instance; with 1000 or more instances ids collide (refuted).", "quantifier": "all category and instance numbers", "why_tests_cant": "all number pairs", "anchors": ["pyEdgeEval/common/multi_label/utils.py: convert_inst_seg"]}
{"id": "C32", "title": "On-the-fly single-class edges equal the stored conversion", "statement": "The edge map built on the fly for one category equals that category's slice of the full conversion (semantic and instance-sensitive). In both cases a pixel of category c is set exactly when it lies in the boundary band of the class with train id c-1 (or of one of its instances), borders with the labels 2 and 3 not counting.", "quantifier": "all masks and categories", "why_tests_cant": "all images and categories", "anchors": ["pyEdgeEval/datasets/otf_cityscapes.py: one_label_mask2edge, one_label_instance_mask2edge"]}
{"id": "C33", "title": "Non-maximum suppression only lowers values", "statement": "A pixel survives non-maximum suppression iff, up to the multiplier, it is at least the bilinearly interpolated values at distances 1..r on both sides along its orientation; survivors are attenuated linearly near the border and all others become 0, so values are only lowered, the shape is kept and a global maximum survives. No access outside the image is made when both dimensions are at least 2; the low-level routine ends the process for a single row or column, but fast_nms rejects such images first. The orientation used by fast_nms is that of the ridge of the smoothed map (arctangent of its second derivatives).", "quantifier": "all edge and orientation maps", "why_tests_cant": "index arithmetic for all sizes and orientations", "anchors": ["pyEdgeEval/_lib/src/benms.cc: interp, benms", "pyEdgeEval/_lib/nms.pyx", "pyEdgeEval/preprocess/nms/fast_nms.py"]}
{"id": "C34", "title": "Triangle smoothing is an average", "statement": "The triangle filter has non-negative, symmetric weights summing to 1, so smoothing keeps constants, keeps the range of values and the image shape (without down-sampling).", "quantifier": "all images and radii", "why_tests_cant": "all images and radii", "anchors": ["pyEdgeEval/preprocess/nms/toolbox.py: conv_tri"]}
{"id": "C35", "title": "Evaluation parameters are set consistently", "statement": "After set_eval_params the evaluator's tolerance, thin, kill_internal and skip options are those of the selected mode; invalid combinations are rejected; a failed call may leave the object changed (refuted atomicity), and SBD post-seal ignores the caller's tolerance (refuted).", "quantifier": "all sequences of set_eval_params calls", "why_tests_cant": "all call histories", "anchors": ["pyEdgeEval/evaluators/sbd.py: set_eval_params", "pyEdgeEval/evaluators/cityscapes.py: set_eval_params"]}
{"id": "C36", "title": "Category selection", "statement": "evaluate(categories=...) evaluates exactly the requested categories in order: None means 1..N, an int means that one, an out-of-range id is rejected \u2014 after the preceding categories have already been evaluated and saved.", "quantifier": "all category arguments", "why_tests_cant": "all lists", "anchors": ["pyEdgeEval/evaluators/base.py: evaluate"]}
{"id": "C37", "title": "Command line parsing of thresholds and categories", "statement": "A decimal numeral gives that integer, a bracketed comma separated list gives the list of its numbers, and out-of-range categories are rejected before evaluation.", "quantifier": "all argument strings", "why_tests_cant": "all strings", "anchors": ["pyEdgeEval/helpers/evaluate_bsds500.py", "pyEdgeEval/helpers/evaluate_sbd.py", "pyEdgeEval/helpers/evaluate_cityscapes.py"]}
{"id": "C38", "title": "The per-image routines count the files' classes; SBD kill_internal masks the wrong class", "statement": "For every scale, the per-image evaluation of a category counts the predicted pixels of the resampled prediction against the category's bits in the resampled edge file (SBD: ignoring predictions in the 5 outermost pixels). Kill-internal for category c must use the segmentation mask of category c. For Cityscapes trainId files it does; for SBD labelId files it uses the mask of the preceding category (refuted).", "quantifier": "all segmentation maps and categories", "why_tests_cant": "needs the id conventions of writer and reader to be compared for all maps", "anchors": ["pyEdgeEval/datasets/sbd.py", "pyEdgeEval/datasets/cityscapes.py"]}
{"id": "C39", "title": "Progress reporting and result collection", "statement": "track_progress calls the function once per task in order and returns the results in order; the bar's completed count after n updates is n; skip_first drops exactly the first result from parallel results' timing but not from results.", "quantifier": "all task lists", "why_tests_cant": "histories unbounded", "anchors": ["pyEdgeEval/utils/progressbar.py"]}
{"id": "C40", "title": "Directory scan", "statement": "scandir yields exactly the relative paths of the non-hidden regular files with the required suffix, recursively when asked, each once. (Files inside hidden directories are listed too: only the file's own name is tested.)", "quantifier": "all directory trees", "why_tests_cant": "all trees", "anchors": ["pyEdgeEval/utils/path.py: scandir"]}
{"id": "C41", "title": "Timer", "statement": "While running, a timer's elapsed time counts from the start that made it running; restarting is only possible explicitly; successive checks never overlap, so the check intervals sum to at most the elapsed time; using an unstarted timer raises an error.", "quantifier": "all call histories; the bounds on intervals for monotone clocks (a clock set back gives negative times: refuted for arbitrary clocks)", "why_tests_cant": "all histories", "anchors": ["pyEdgeEval/utils/timer.py: Timer, check_time"]}
{"id": "C42", "title": "Logger initialisation", "statement": "A logger name is initialised with handlers at most once; repeated calls never add handlers; a logger whose name starts with the name of an initialised one gets none (a textual prefix, so also an unrelated logger such as 'pyEdgeEval2': refuted that every requested logger emits); and a log file requested on a second call is silently ignored.", "quantifier": "all call histories", "why_tests_cant": "all histories", "anchors": ["pyEdgeEval/utils/logger.py: get_logger, get_root_logger"]}
{"id": "C43", "title": "Split file round trip", "statement": "Names written to a split file are read back in the same order.", "quantifier": "all name lists without line breaks", "why_tests_cant": "all lists", "anchors": ["pyEdgeEval/helpers/convert_cityscapes.py: convert_cityscapes", "pyEdgeEval/evaluators/*.py: set_sample_names"]}
{"id": "C44", "title": "Output names of NMS post-processing", "statement": "Different prediction files get different output files. (The model refutes it: only the first character of the name is used.)", "quantifier": "all file name lists", "why_tests_cant": "all names", "anchors": ["pyEdgeEval/preprocess/nms/fast_nms.py: nms_results"]}
{"id": "C45", "title": "F1 iso-curves", "statement": "Every plotted point of the iso-F curve for f has F1 exactly f.", "quantifier": "all f in (0,1) and recalls", "why_tests_cant": "all reals", "anchors": ["pyEdgeEval/visualization/pr_curve.py", "pyEdgeEval/common/binary_label/visualize.py"]}
{"id": "C46", "title": "The assignment solver returns a minimum-cost perfect matching", "statement": "On every graph with a perfect matching and some non-zero cost the cost-scaling solver terminates and its result is a perfect matching of minimal total integer cost, hence the correspondence minimises total distance plus outlier penalties over the sampled graph. Graphs with an endpoint out of range are rejected; if every cost is 0 the solver dereferences a null pointer.", "quantifier": "all feasible bipartite graphs with integer costs", "why_tests_cant": "optimality over all graphs", "anchors": ["pyEdgeEval/_lib/include/csa.hh", "pyEdgeEval/_lib/src/csa.cc"]}
{"id": "C47", "title": "Random generator: ranges, replay and seeding", "statement": "Integer draws of the random generator lie in the requested range (bounds included) and every value of the range can be drawn; a generator with the same seed replays the same stream, and resetting it replays its own stream from the start. The generator used by the correspondence is seeded from the wall clock, so two runs on the same images need not match the same number of pixels.", "quantifier": "all seeds, ranges and call histories", "why_tests_cant": "all streams", "anchors": ["pyEdgeEval/_lib/src/Random.cc", "pyEdgeEval/_lib/include/Random.hh"]}
{"id": "C48", "title": "Mask2Edge transforms", "statement": "Mask2Edge returns, for every non-ignored entry of its label list, exactly the boundary band of the pixels carrying that label (not counting borders with ignored labels), no edges for ignored entries, and the mask unchanged; InstanceMask2Edge additionally marks the boundaries of every instance of a class that is present. With a label table, edge maps and mask are renumbered consistently. Empty label lists, radii below 1, images of different shape, and images with fewer rows than labels are rejected with AssertionError.", "quantifier": "all masks, instance masks, label lists, ignore lists, tables and radii", "why_tests_cant": "infinitely many images and parameter combinations", "anchors": ["pyEdgeEval/edge_tools/transforms.py: Mask2Edge, InstanceMask2Edge", "pyEdgeEval/edge_tools/mask2edge_loop.py"]}
{"id": "C49", "title": "An evaluation reads exactly the files of its samples", "statement": "evaluate_category builds one entry per sample name, in order, with the documented full paths (root/gtEval/split/name+suffix, root/gtFine/..., pred/class_0NN/name+suffix, also for custom gt_dir and pred_suffix). If a ground truth file is missing it raises AssertionError before reading anything; if a prediction is missing there is no result (FileNotFoundError). Different samples or categories read different predictions (for relative names; absolute names ignore the category). The result depends on no other file and has one row per sample in order. BSDS: the .mat files of the split directory, with and without no_split_dir (which can merge samples whose names contain the split twice).", "quantifier": "all roots, names, suffixes, categories and disk contents", "why_tests_cant": "paths and disk contents are unbounded", "anchors": ["pyEdgeEval/evaluators/cityscapes.py: evaluate_category", "pyEdgeEval/evaluators/sbd.py: evaluate_category", "pyEdgeEval/evaluators/otf_cityscapes.py: evaluate_category", "pyEdgeEval/evaluators/bsds.py: set_sample_names, evaluate"]}
{"id": "C50", "title": "Converting Cityscapes labels to edge files", "statement": "convert_label_to_semantic_edges stores, as .png or .tif, 19 channels which read back as: the on-the-fly edges of each class at full scale; at a smaller scale without seal the edges of the resampled images; with seal and no thinning the full scale edges sampled at the rounded-down positions; with thinning the thinned radius 1 edges. Thinning with a radius other than 1 and formats other than .png/.tif fail. The half size raw file is not what the evaluation at scale 1/2 makes of the full size file (refuted).", "quantifier": "all label and instance images, radii, scales, flags", "why_tests_cant": "infinitely many images and parameter combinations", "anchors": ["pyEdgeEval/helpers/convert_cityscapes.py: convert_label_to_semantic_edges, resize_np"]}
{"id": "C51", "title": "Preparing Cityscapes end to end", "statement": "A run of convert_cityscapes on a dataset directory whose path does not contain 'gtFine' writes, for every training label file, its edge file, and for every validation label file its raw and thinned edge files (and the two half size ones if asked), under the documented names; each file is a picture of its format that reads back as what its name says; nothing else on the disk changes, in particular no source. The names are the ones the evaluators read. Evaluating the prepared raw files at scale 1 gives exactly the result (or exception) of the on-the-fly evaluation of the label files, for every category, parameter set, prediction and generator state. For a directory path containing 'gtFine' the edges go elsewhere (refuted).", "quantifier": "all dataset directories, file lists, images, radii, formats and disks; all evaluation parameters", "why_tests_cant": "infinitely many disks, images and parameter combinations", "anchors": ["pyEdgeEval/helpers/convert_cityscapes.py: convert_cityscapes, convert_label_to_semantic_edges, convert_json_to_label", "pyEdgeEval/evaluators/cityscapes.py: evaluate_category", "pyEdgeEval/evaluators/otf_cityscapes.py: evaluate_category"]}
{"id": "C52", "title": "Preparing SBD end to end", "statement": "A run of convert_sbd over the train and val lists writes exactly seven files per listed sample and nothing else: raw and thinned edge pictures (with and without instance sensitivity), label, train id and instance id pictures. The raw edge picture decodes to 20 maps whose pixel (y,x) of class c is an edge iff it lies within the radius band of the class region inside a 5 pixel border; the instance sensitive one adds the bands of the individual instances of that class; the thinned ones are the thinned radius 1 maps; the id pictures hold the bordered labels, train ids, and 1000*class+rank numbers. The run stops at the first sample without annotations or with fewer than 22 rows, keeping the earlier files. Semantic edges never enter the border (radius at most 2), instance sensitive edges can (refuted) but only up to the radius, and contain the semantic edges. The evaluator reads exactly the files written, and takes the same names from a list, whatever the line ends.", "quantifier": "all sample lists, annotation files, directories, radii and disks", "why_tests_cant": "infinitely many segmentations, sample lists and disks", "anchors": ["pyEdgeEval/helpers/convert_sbd.py: convert_mat2np, routine, get_samples", "scripts/convert_datasets/sbd.py", "pyEdgeEval/evaluators/sbd.py"]}
{"id": "C53", "title": "Annotated SBD boundaries", "statement": "Pixel (y,x) of the dense array of a sparse boundary matrix is the value column x lists for row y, 0 if none. load_instance_sensitive_gt returns, for every class, the union of the class boundary and of the boundaries of the instances of that class; load_reanno_instance_sensitive_gt the union of the two maps of every present class. An instance of a class not listed as present is refused by both. The re-annotation run writes the two files of every listed image with exactly these maps and nothing else, and the name list it writes reads back as the unthinned names.", "quantifier": "all sparse matrices, class and instance files, image lists and disks", "why_tests_cant": "infinitely many matrices and files", "anchors": ["pyEdgeEval/helpers/convert_sbd.py: load_sbd_gt_cls_mat, load_sbd_gt_inst_mat, load_instance_sensitive_gt, load_reanno_instance_sensitive_gt, reanno_routine", "pyEdgeEval/utils/mat_utils.py: sparse2numpy", "scripts/convert_datasets/sbd.py"]}
{"id": "C54", "title": "One category, from the files to the scores", "statement": "With all files of every sample in place and usable, evaluating a category delivers a result, whatever the random generator: one row per sample in order; the counts of every image are those of its edge file (or of the edges of its label and instance images, computed at the scaled size with radius 1 or 2), its segmentation and the prediction of that category, resampled to the scaled size, with the SBD evaluators ignoring predictions in the five outermost pixels; the threshold rows are the scores of the summed counts, and every reported score lies in [0,1].", "quantifier": "all sample lists, images on disk, categories, threshold lists, scales, distances, flags, directories and generator states", "why_tests_cant": "infinitely many image sets, parameters and generator states", "anchors": ["pyEdgeEval/evaluators/cityscapes.py: evaluate_category", "pyEdgeEval/evaluators/sbd.py: evaluate_category", "pyEdgeEval/evaluators/otf_cityscapes.py: evaluate_category, _eval_single", "pyEdgeEval/evaluators/half_cityscapes.py", "pyEdgeEval/common/multi_label/calculate_metrics.py"]}
{"id": "C55", "title": "The precision/recall plot", "statement": "Plotting several algorithms shows one curve per algorithm, the points of its own threshold file under its own name, sorted with the best ODS F-score first; one line per algorithm is printed (worst first) with its ODS, OIS, AP and R50 rounded to three decimals, and the legend lists the names in the curve order with the ODS to two decimals, after the human entry where asked for. R50 is the recall of the curve at precision 1/2 by linear interpolation between neighbouring precisions (the first row of each precision), at the smallest precision when all exceed 1/2, and NaN exactly when all precisions are below 1/2. Plotting succeeds when all tables have the same number of kept thresholds, and always fails with ValueError when two have different numbers.", "quantifier": "all result files, lists of algorithms and lists of names", "why_tests_cant": "infinitely many result files, algorithm lists and orders of scores", "anchors": ["pyEdgeEval/visualization/pr_curve.py: plot_pr_curve, _calc_r50, _load_pr_results, _load_overall_results", "pyEdgeEval/common/binary_label/visualize.py: plot_pr_curves"]}
{"id": "C56", "title": "Floating point rounding does not distort the reported scores", "statement": "The scores are computed with binary64 numbers. For counts below 2^53 pixels the recall and the precision reported for an image, a threshold, or the whole dataset are the exact ratio rounded once, every F1 is within 8*2^-53 of the exact one (the ODS F1 within 52*2^-53), the average precision is within 300*2^-53 of the exact one provided no recall lies within 3*2^-53 of one of the levels 0.01..0.99, and every score lies in [0,1]; the computation succeeds whenever the exact one does. The proviso is needed: a recall of exactly 0.35 loses one of the 101 terms of the average precision.", "quantifier": "all numbers of thresholds, all lists of images with sane counts (0 <= count <= sum) totalling at most 2^53 pixels", "why_tests_cant": "rounding errors depend on every count; tests compare a few decimal digits on a few datasets", "anchors": ["pyEdgeEval/common/metrics.py: compute_metrics, interpolated_max_scores", "pyEdgeEval/common/binary_label/calculate_metrics.py", "pyEdgeEval/common/multi_label/calculate_metrics.py"]}
{"id": "C57", "title": "The floating-point solver still returns valid and near-optimal matchings", "statement": "The assignment solver keeps prices, reduced costs and epsilon in binary64 numbers. Whatever the rounding errors, on every feasible graph with a non-zero cost it follows no null pointer and a result it returns is a perfect matching; hence every correspondence returned by correspond_pixels is one-to-one, within the tolerance, and counts no more matches than edge pixels. With N nodes on each side and costs up to C, N^2 C <= 2^41 guarantees that it terminates with a matching at most 1 cost unit (0.01 pixel) above the optimum, and N^3 C <= 2^40 that the matching is optimal; the same holds for correspond_pixels with K edge pixels and C = 100 times the outlier weight.", "quantifier": "all feasible bipartite graphs; all pairs of edge maps, tolerances, outlier costs and random streams", "why_tests_cant": "rounding errors accumulate along every possible sequence of pushes and price updates", "anchors": ["pyEdgeEval/_lib/include/csa.hh: main, refine, double_push, update_epsilon", "pyEdgeEval/_lib/src/match.cc: matchEdgeMaps"]}
{"id": "C58", "title": "Rounding in the matching geometry does not change what counts as a match", "statement": "correspond_pixels computes the tolerance max_dist*diagonal, its square, the pixel distances, the integer weights, the outlier cost and the reported cost in binary64. For images up to 65536x65536, 2^-90 <= max_dist <= 512 and outlier_cost >= 1+2^-49 the call never fails an assertion; the result is a one-to-one correspondence for a squared tolerance within 2^-50 (relative) of the exact one, and the reported cost is the cost of that correspondence up to (K+1)*2^-52 (relative), K the number of edge pixels. If the tolerance is a decimal fraction k/N the result is a correspondence for exactly that fraction, unless the square of the nominal tolerance in pixels is an integer; if no integer is within 2^-50 of the squared tolerance and of the outlier cost in hundredths of a pixel, everything but the reported cost is exactly as with exact arithmetic, which is so at the default settings for the image sizes of BSDS500 and Cityscapes. The proviso is needed: at the SBD setting 0.02, in a 300x500 image two pixels 6 rows and 10 columns apart are exactly at the tolerance and are not matched.", "quantifier": "all pairs of edge maps of equal shape, tolerances, outlier costs, random streams and fuels", "why_tests_cant": "whether a distance equal to the tolerance is accepted depends on the rounding for the particular image size and tolerance", "anchors": ["pyEdgeEval/_lib/correspond_pixels.pyx: correspond_pixels", "pyEdgeEval/_lib/src/match.cc: matchEdgeMaps"]}
{"id": "C59", "title": "Rounding of thresholds does not change which pixels are edges", "statement": "For an integer number n of thresholds (up to 2^40) the doubles computed for check_thresholds(n) are k/(n+1) up to 9*2^-53, strictly increasing and strictly between 0 and 1. Thresholding an 8-bit prediction (loaded as pred/255 or by img_as_float) at threshold k in binary64 gives exactly the binary map that exact arithmetic gives, unless some pixel value v satisfies v*(n+1) = 255*k (it is exactly on the threshold). With the default n = 99 this proviso is not needed; with n = 23 it is: a pixel of value 85 is not an edge at threshold 8/24 although 85/255 = 8/24.", "quantifier": "all integers n from 1 to 2^40, all thresholds, all 8-bit predictions of any shape", "why_tests_cant": "whether a pixel on a threshold is accepted depends on the rounding of one quotient, one product and one sum for the particular n and value", "anchors": ["pyEdgeEval/common/utils.py: check_thresholds", "pyEdgeEval/common/binary_label/evaluate_boundaries.py", "pyEdgeEval/common/multi_label/evaluate_boundaries.py", "pyEdgeEval/datasets/cityscapes.py", "pyEdgeEval/datasets/sbd.py", "pyEdgeEval/datasets/bsds.py: load_predictions"]}
{"id": "C60", "title": "A whole evaluation in floating point counts what it should", "statement": "Evaluate 8-bit predictions with an integer number n of thresholds (99, or such that no pixel is exactly on a threshold), a distance k/N of the diagonal whose square in pixels is not an integer (0.0075 at 321x481, 0.0035 at 1024x2048, ...) and a scale like 1, 0.5 or 0.25, every floating point number being the double the program computes. Then no image raises an exception, and the four counts of every image, class and threshold are those of a one-to-one correspondence at the nominal tolerance, thresholds and sizes: thresholding, thinning, the removal of internal predictions, the cost graph and the resizing decide as the exact numbers do. The scores reported for a BSDS benchmark, or for one class of a benchmark with stored ground truth, are the exact scores of these counts up to multiples of 2^-53. With few edge pixels (for BSDS images 711, predicted and annotated) the evaluation is sure to end.", "quantifier": "all images up to 2^14 x 2^14, all annotators, all numbers of samples, all values of the random generator", "why_tests_cant": "one rounded comparison that falls on the wrong side changes a count, and which one does depends on sizes, tolerances, thresholds and pixel values", "anchors": ["pyEdgeEval/common/binary_label/evaluate_boundaries.py", "pyEdgeEval/common/multi_label/evaluate_boundaries.py", "pyEdgeEval/common/multi_label/options.py", "pyEdgeEval/datasets/bsds.py", "pyEdgeEval/datasets/cityscapes.py", "pyEdgeEval/datasets/sbd.py", "pyEdgeEval/datasets/otf_cityscapes.py", "pyEdgeEval/common/binary_label/calculate_metrics.py"]}
{"id": "C61", "title": "A BSDS run reports exactly its samples and writes exactly its files", "statement": "Run the BSDS script with the directories in place, one prediction for every .mat file of the split and usable images. Whatever the random generator yields, the run ends without exception; the result it returns is that of exactly the .mat files of the split directory, in the order of the listing, each with the correspondence counts of its prediction (thinned and suppressed as the options say) against all its annotators; eval_bdry.txt, eval_bdry_thr.txt and eval_bdry_img.txt in the output directory show that result to six decimals and no other text file changes. If a file is missing, the run stops with an AssertionError; without split directory or .mat files with a TypeError; if the extension is written .MAT, the sample is looked up as .mat and the run stops; every failure leaves all text files as they were.", "quantifier": "all options, directory contents, images, numbers of annotators and values of the random generator", "why_tests_cant": "the composition of option parsing, directory listing, file lookup, evaluation and writing must hold for every directory content and every random stream", "anchors": ["pyEdgeEval/helpers/evaluate_bsds500.py", "pyEdgeEval/evaluators/bsds.py: BSDS500Evaluator", "pyEdgeEval/datasets/bsds.py: bsds_eval_single", "pyEdgeEval/common/utils.py", "pyEdgeEval/common/binary_label/calculate_metrics.py"]}
{"id": "C62", "title": "A run over categories reports exactly the requested categories and writes exactly its files", "statement": "Run the SBD script or one of the two Cityscapes scripts (or call evaluate on an evaluator with stored or computed ground truth) with the directories, the split file, the ground truth and a prediction per category and sample in place. Whatever the random generator yields, the run ends without exception; for every requested category, in the requested order, there is the result of exactly the samples named in the split file, with the correspondence counts of the prediction against the edges of that class at the tolerance, scale, thinning and mode the options select; the class table lists these results in percent, the summary their averages; class_NNN/eval_bdry*.txt, overall_eval_bdry.txt and results.txt show them, and no other text file changes. SBD uses tolerance 0.02 and .png predictions whatever --max-dist and --pred-suffix say. A missing ground truth file, directory or split file stops the run with an AssertionError before anything is written; however a run ends, only the result files of the requested categories and the two summary files may change.", "quantifier": "all options, category lists, split files (LF, CRLF or CR), images and values of the random generator; all numbers of samples and categories", "why_tests_cant": "the composition of option parsing, file lookup, per-class evaluation, averaging and writing must hold for every selection of categories and samples and every random stream", "anchors": ["pyEdgeEval/helpers/evaluate_sbd.py", "pyEdgeEval/helpers/evaluate_cityscapes.py", "pyEdgeEval/evaluators/base.py: evaluate", "pyEdgeEval/evaluators/sbd.py", "pyEdgeEval/evaluators/cityscapes.py", "pyEdgeEval/evaluators/half_cityscapes.py", "pyEdgeEval/evaluators/otf_cityscapes.py", "pyEdgeEval/common/multi_label/io.py"]}
{"id": "C63", "title": "Evaluating with several processes", "statement": "With any number of processes, however the samples are spread over the workers and in whatever order they finish, the evaluation of a category or of BSDS and the scripts return one result per sample in the order of the samples, and the order of completion makes no difference at all. Every result is one that the sample, evaluated alone, has for some state of the random generator, and if one fails, the exception of the first failing sample is raised; so where the samples do not depend on the random numbers, one process and many give equal results. Every parallel loop starts from the generator as it was before the loop and leaves it so: with several processes, the result of a category does not depend on which categories are evaluated before it.", "quantifier": "all numbers of processes and samples, all distributions of samples over workers, all orders of completion, all random streams, all categories", "why_tests_cant": "the distribution and the completion order are chosen by the operating system; a test sees a few schedules", "anchors": ["pyEdgeEval/common/multi_label/calculate_metrics.py: calculate_metrics", "pyEdgeEval/common/binary_label/calculate_metrics.py: calculate_metrics", "pyEdgeEval/utils/progressbar.py: track_parallel_progress", "pyEdgeEval/_lib/src/Random.cc"]}
{"id": "C64", "title": "Converting data sets with several processes", "statement": "Convert Cityscapes or SBD with any number of processes, the label or MATLAB files being in place. Under every interleaving of the workers' reads and writes there is no exception, and a run that has ended has written every edge, train id and label file completely, with the content its name promises (the same as with one process). If the run is killed at any moment, each of these files is as it was before, partly written or complete with that content, no other file has been touched, the inputs are intact, and running the conversion again ends with all files complete. In general, loops over jobs that write only files of their own behave under every schedule as in one process, raise the first exception in the order of the jobs, and can always come to an end. If a label image that is needed is missing, incomplete or not of one channel, or an SBD list or annotation is missing, no schedule makes the run succeed, and the inputs stay as they are.", "quantifier": "all numbers of processes, images, directories, options, all interleavings of the file operations and all moments of interruption", "why_tests_cant": "the interleaving and the moment of a crash are chosen by the operating system", "anchors": ["pyEdgeEval/helpers/convert_cityscapes.py: convert_cityscapes, convert_routine_wrapper, convert_label_to_semantic_edges, convert_json_to_label", "pyEdgeEval/helpers/convert_sbd.py: routine", "scripts/convert_datasets/sbd.py", "pyEdgeEval/utils/progressbar.py: track_parallel_progress, track_progress", "pyEdgeEval/utils/path.py: mkdir_or_exist"]}
{"id": "C65", "title": "Comparison with reference edge files", "statement": "test_against_matlab compares each reference file <root>/<matlab>/<split>/<city>/<name>_gtProc_edge.png with <root>/<proc>/<split>/<city>/<name><suffix> (suffix _gtProc_edge.<ext> for the training split, _gtProc_raw_edge.png for the validation split) and no other. The number counted for a file is the number of entries of the two images that differ; a file is a miss exactly if it is not zero; the files with more than three differences are printed, in order, with their number, and the numbers of misses of both splits are printed last. No miss means that the images are identical, and then nothing else is printed. A file missing on either side ends the comparison with an exception. The instance-sensitive comparison is refused.", "quantifier": "all file systems, directory names, lists of files and image contents", "why_tests_cant": "the claim ranges over all names and all image contents", "anchors": ["pyEdgeEval/helpers/convert_cityscapes.py: test_edges, test_against_matlab", "scripts/convert_datasets/cityscapes.py"]}
{"id": "C66", "title": "Binary edge files", "statement": "binary_multilabel_decoding(path, h, w, n) of a file with 4*h*w bytes (plus at most three, which are ignored) returns an array (n, h, w) whose entry (k, y, x) is bit k of the (y*w+x)-th little-endian 32-bit word, and 0 for k >= 32; any other file size raises ValueError. For a file written with tofile from an encoded edge stack of at most 32 categories this gives the stack back (cut or zero padded to n channels), the same as decoding the TIFF; different label images have different files.", "quantifier": "all files, shapes, numbers of classes and edge stacks", "why_tests_cant": "all byte strings and all stacks", "anchors": ["pyEdgeEval/common/multi_label/edge_decoding.py: binary_multilabel_decoding", "pyEdgeEval/common/multi_label/edge_encoding.py: default_multilabel_encoding"]}
{"id": "C67", "title": "The colour map of the visualisations", "statement": "color_map(N) has N rows; bit 7-k of the red, green, blue entry of row i is bit 3k, 3k+1, 3k+2 of i; all entries are bytes; row 0 is black; row i does not depend on N; rows i and j have the same colour exactly if i and j agree modulo 2^24, so categories never share a colour; with normalized the entries are these bytes divided by 255, in [0, 1].", "quantifier": "all N and all rows", "why_tests_cant": "all pairs of rows for all N", "anchors": ["scripts/other/pascal_voc_colormap.py: color_map"]}
{"id": "C68", "title": "Directories made by several processes", "statement": "Any number of mkdir_or_exist calls running in several processes at once (the same directory, or one inside another) never raise an exception, under every interleaving of their file system calls and up to any moment, when only directories are in their way; when a call has returned, its directory exists with everything above; nothing else is created, changed or removed; and the calls can always finish. A file with the directory's own name makes the call raise FileExistsError, a file in place of a directory above another OSError, with nothing changed. Hence the conversion jobs, which first make the directory of their output and then read and write, behave in every interleaving exactly as if all directories had been there from the start (the assumption of C64): same files, same outcome. In particular convert_cityscapes, started without its output directories, raises neither an exception of its own nor an OSError under any schedule, and has written every file completely when it ends.", "quantifier": "all sets of directories, all starting file trees, all interleavings and stopping points, all pools of jobs", "why_tests_cant": "exists-then-mkdir races depend on the interleaving of system calls of several processes, which a test cannot enumerate", "anchors": ["pyEdgeEval/utils/path.py: mkdir_or_exist", "pyEdgeEval/helpers/convert_cityscapes.py: _label_to_edge, convert_json_to_label, convert_cityscapes", "pyEdgeEval/utils/progressbar.py: track_parallel_progress"]}
{"id": "C69", "title": "32-bit integers suffice for the matcher", "statement": "For images with at most n edge pixels each, at most k pixels within the tolerance of a pixel, 3*(n*(k+20)+1) < 2^32, a diagonal below 2^15 pixels, a tolerance of at most 30000 pixels and an outlier cost (times tolerance) of at most 214748 pixels, every int and unsigned variable and subexpression of correspond_pixels / matchEdgeMaps stays in range, for all images, random numbers and solutions: so the model with unbounded integers describes the code. The data sets' sizes and tolerances with outlier cost 100 satisfy this. Beyond 214749 pixels of outlier cost the weight of the overlay always overflows. The sum of the costs that the solver accumulates in an int (and nobody reads) is at least the outlier weight times the larger node count, so it overflows on ordinary Cityscapes pictures (26797 matchable pixels on one side).", "quantifier": "all pairs of images, all tolerances and outlier costs in the range, all random streams, all perfect matchings of the graph", "why_tests_cant": "overflow depends on the largest intermediate value over all images of a size and all random choices; tests use small images", "anchors": ["pyEdgeEval/_lib/src/match.cc: matchEdgeMaps", "pyEdgeEval/_lib/correspond_pixels.pyx: _correspond_pixels", "pyEdgeEval/_lib/include/Array.hh: Array2D", "pyEdgeEval/_lib/include/csa.hh: CSA"]}
{"id": "C70", "title": "The matcher never leaves its arrays", "statement": "correspond_pixels never reads or writes an element outside one of its arrays (pixels, node numbers, marks, outlier buffer, graph, solution, result matrices), never reads an element that was not written before, never looks up a node that does not exist and never hands the solver an arc outside its node range, for all pictures, tolerances and random numbers whose array sizes fit an unsigned integer (those of the data sets do); and executed access by access it computes the same result matrices and cost as its description by sets of pixels. This includes the solver's own arrays, whether its prices are exact or doubles. Beyond 2^32 array elements distinct rows share cells without any assertion noticing.", "quantifier": "all pairs of images, all tolerances and outlier costs, all random streams, every step of every loop", "why_tests_cant": "a read of uninitialised or neighbouring memory usually goes unnoticed in a test run and depends on sizes and on random choices", "anchors": ["pyEdgeEval/_lib/src/match.cc: matchEdgeMaps", "pyEdgeEval/_lib/include/Array.hh: Array1D, Array2D", "pyEdgeEval/_lib/src/kofn.cc: kOfN", "pyEdgeEval/_lib/include/csa.hh: CSA(n, m, graph), get_edge", "pyEdgeEval/_lib/correspond_pixels.pyx: _correspond_pixels"]}
{"id": "C71", "title": "The assignment solver never leaves its memory", "statement": "On every graph with all endpoints in range, a perfect matching and some non-zero cost, the solver executed access by access (its malloc'd arc, node, price, best, stack and result arrays, every pointer an index) never reads or writes outside an array, never reads a cell that was not written, never follows a null pointer, at no step of any run; it terminates and returns the minimum-cost matching of its description by functions. Parsing lays out the arcs of every left node next to each other in input order and rejects an endpoint out of range before using it. All of this holds with the prices as the doubles of the code too (up to 2^30 nodes a side; then the result is a perfect matching, optimal under the bounds of C57). The graphs correspond_pixels builds satisfy the hypotheses, so it inherits the guarantee. A left node without arcs makes the solver read memory it does not own.", "quantifier": "all feasible bipartite graphs with integer costs, every number of steps", "why_tests_cant": "stray reads inside malloc'd memory are silent and depend on the degrees of the nodes and the order of the arcs", "anchors": ["pyEdgeEval/_lib/include/csa.hh: CSA, parse, best_build, sort_insert, double_push, refine, store_results", "pyEdgeEval/_lib/include/csa_defs.h"]}
{"id": "C72", "title": "Iterating with a progress bar", "statement": "track_iter_progress is a generator: whatever the consumer does with it (asks, closes, throws, in any order), it yields the tasks in order, each once, then only the end; the header is written at the first request, a task is counted when the next one is asked for, the line is ended exactly when the tasks are exhausted, and after a close or a throw nothing is yielded or written. Looping over it with a body that may raise gives the results, the exception and the bar of track_progress. The declared number of an (iterable, number) pair changes neither; an iterable that fails passes its exception on after its items. A bad argument is reported at the first request, not by the call. Leaving the loop at the last task leaves it uncounted.", "quantifier": "all sequences, all histories of requests, closes and throws, all loop bodies", "why_tests_cant": "tests consume the generator once, to the end", "anchors": ["pyEdgeEval/utils/progressbar.py: track_iter_progress, track_progress, ProgressBar.update"]}
{"id": "C73", "title": "The bar that is drawn", "statement": "In binary64: the bar has between no and all of its cells marked, never fewer after more tasks, in proportion to the tasks done (rounded down, up to a millionth of a cell), and it is full exactly when all tasks are done (up to 2^53 tasks and cells): rounding never fills it early. Whenever message and a bar of two cells fit, the line leaves the last column of the terminal free; the bar keeps within bar_width and six tenths of the terminal, and one more cell would break one of the three limits. With a declared number that is too small the line can outgrow the terminal.", "quantifier": "all bar widths, terminal widths, numbers of tasks, and texts of the timings", "why_tests_cant": "rounding and widths interact for particular numbers of tasks only", "anchors": ["pyEdgeEval/utils/progressbar.py: ProgressBar.update"]}
{"id": "C74", "title": "Messages reach the user", "statement": "print_log to a named logger: when no initialised logger's name is a textual prefix of the name, every message at INFO or above is written exactly once, on that logger's own stream, the first time and each further time. No handler ever writes a record below its level, and only handlers of the logger and of textual prefixes of its name write. A name that merely starts with an initialised name is not heard at all: its INFO messages are lost.", "quantifier": "all histories of get_logger and print_log calls, names and levels", "why_tests_cant": "what is written depends on every logger initialised before", "anchors": ["pyEdgeEval/utils/logger.py: print_log, get_logger"]}
{"id": "C75", "title": "Links are replaced, never followed", "statement": "However many processes call symlink at the same time, in any interleaving and with a crash at any moment: only the destinations are touched (never a target); a destination holds what was there before, nothing (only if a call may overwrite and no directory is in the way), or the link of a call that returned; a directory is never removed. When all calls have ended, every destination in an existing directory holds something. Without overwriting, exactly one of the calls for a new destination wins. A single call ends as documented and changes nothing when it raises. Overwriting is not atomic (a crash in between leaves nothing, overlapping calls can raise). check_file_exist accepts exactly what leads to a file through links.", "quantifier": "all calls, interleavings and crash points, all trees", "why_tests_cant": "races and crashes between the system calls", "anchors": ["pyEdgeEval/utils/path.py: symlink, check_file_exist"]}
{"id": "C76", "title": "The generic binary evaluation cannot score anything", "statement": "bsds_eval_single of datasets/generic_binary.py raises for every sample, whatever the files hold, as soon as there is a threshold: it hands the list of ground truths to the function for a single array (AttributeError for an 8-bit prediction). A prediction that is not 8-bit raises AssertionError; without thresholds it returns empty counts. Given an array the same function evaluates as everywhere else.", "quantifier": "all samples, thresholds and options", "why_tests_cant": "no test calls it; that no input works is a statement about all inputs", "anchors": ["pyEdgeEval/datasets/generic_binary.py: _evaluate_single, load_bsds_gt_boundaries, load_predictions", "pyEdgeEval/common/binary_label/evaluate_boundaries.py: evaluate_boundaries_threshold"]}
{"id": "C77", "title": "Non-maximum suppression in double precision", "statement": "With every operation rounded to binary64, nms never accesses a pixel outside an image of 2 to 2^31 rows and columns, whatever the orientations, radius, border width, multiplier and the values of cos and sin; the result has the same shape, every pixel lies between 0 and its input, a suppressed pixel is exactly 0, a kept pixel away from the border is unchanged bit for bit, and the outermost frame is exactly 0 when there is a border. A pixel with the largest value of the image (at least 2^-900) is kept in every direction as soon as the multiplier is at least 1 + 10^-14 (the default is 1.01): the rounding errors of the interpolation never suppress the maximum. Inside the image the interpolated value differs from exact bilinear interpolation by at most 2^-47 of the largest pixel; arrays of different shapes raise ValueError.", "quantifier": "all images of doubles, orientation maps, radii, border widths and multipliers", "why_tests_cant": "the index computed from a rounded clamp and the accumulated rounding errors range over all doubles", "anchors": ["pyEdgeEval/_lib/src/benms.cc: interp, benms", "pyEdgeEval/_lib/nms.pyx: nms"]}
