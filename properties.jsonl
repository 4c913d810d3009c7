{"id": "C01", "title": "Evenly sampled coordinate: construction", "statement": "get_coord(start, stop, step) either raises or returns a coordinate whose values are start, start+step, start+2*step, ...; whose length is the number of steps needed to reach stop (quotient rounded to one decimal, then up); whose stop attribute is exactly start+len*step; whose min/max/len/shape agree with those values. It raises exactly when the sign of step disagrees with the sign of the adjusted stop-start. Building from shape plus two of start/stop/step gives the same coordinate.", "quantifier": "every integer or integer-nanosecond start, stop, step (positive, negative, zero) and every requested length", "why_tests_cant": "the space of start/stop/step triples and their rounding cases is infinite; tests pick a handful of literals", "anchors": ["dascore/core/coords.py:CoordRange.validate_start_stop_step_len", "dascore/core/coords.py:CoordRange.values", "dascore/core/coords.py:CoordRange._min", "dascore/core/coords.py:CoordRange._max", "dascore/core/coords.py:get_coord"]}
{"id": "C02", "title": "Evenly sampled coordinate: slicing equals numpy slicing of the values", "statement": "For any python slice s (any start, stop, non-zero step, positive, negative or missing, in or out of range), coord[s] has exactly the values numpy would give for coord.values[s], and stays evenly sampled whenever the result is non-empty.", "quantifier": "every evenly sampled coordinate and every slice object", "why_tests_cant": "slice normalisation has many sign/range combinations times every length", "anchors": ["dascore/core/coords.py:CoordRange.__getitem__"]}
{"id": "C03", "title": "Evenly sampled coordinate: range select is the inclusive value filter", "statement": "coord.select((lo, hi)) on an evenly sampled coordinate, ascending or descending, returns a coordinate whose values are exactly the values v of the original with lo <= v <= hi, in their original order, together with an indexer that picks exactly those positions from an array; None/... leave an end open; lo > hi is treated as (hi, lo); when nothing qualifies the result is empty. Exact whenever the step is below 2e10 (20 s in ns); for larger steps exact up to the code's 1e-10 sample rounding.", "quantifier": "every evenly sampled integer/time coordinate, every pair of optional bounds", "why_tests_cant": "boundary positions between/at/beyond samples for every length, sign and bound cannot be enumerated", "anchors": ["dascore/core/coords.py:CoordRange.select", "dascore/core/coords.py:CoordRange._get_index", "dascore/core/coords.py:BaseCoord.get_slice_tuple", "dascore/core/coords.py:BaseCoord._slice_degenerate"]}
{"id": "C04", "title": "Monotonic array coordinate: range select is the inclusive value filter", "statement": "coord.select((lo, hi)) on a strictly monotonic (ascending or descending) coordinate returns exactly the values in [lo, hi] in original order, with a contiguous slice indexer selecting exactly these positions, and an empty coordinate if there are none.", "quantifier": "every strictly monotonic list of values and every pair of optional bounds", "why_tests_cant": "the searchsorted/equal/out-of-range case analysis ranges over all arrays and bounds", "anchors": ["dascore/core/coords.py:CoordMonotonicArray.select", "dascore/core/coords.py:CoordMonotonicArray._get_index"]}
{"id": "C05", "title": "Unsorted array coordinate: range select is the inclusive value filter", "statement": "coord.select((lo, hi)) on an arbitrary 1-D array coordinate returns exactly the values in [lo, hi] in original order with the indexer of their positions (a full slice when all qualify, an empty coordinate when none do).", "quantifier": "every list of values and every pair of optional bounds", "why_tests_cant": "ranges over all arrays", "anchors": ["dascore/core/coords.py:CoordArray.select"]}
{"id": "C06", "title": "Selecting by an array of values, samples or booleans", "statement": "select(array) keeps, in coordinate order, exactly the positions whose value occurs in the array; select(array, samples=True) exactly the positions whose index occurs in it; select(bool_array) exactly the True positions; the returned indexer and coordinate agree.", "quantifier": "every 1-D coordinate of any kind and every array", "why_tests_cant": "all arrays including duplicates, missing and out-of-range entries", "anchors": ["dascore/core/coords.py:BaseCoord._select_by_value_array", "dascore/core/coords.py:BaseCoord._select_by_sample_array", "dascore/core/coords.py:BaseCoord._select_by_array"]}
{"id": "C07", "title": "Selecting by sample range", "statement": "select((a, b), samples=True), with ints, None/..., negatives or a single int, selects exactly the positions python slicing a:b selects (a single int i selects position i without dropping the dimension).", "quantifier": "every coordinate and every sample range", "why_tests_cant": "all sign/range combinations", "anchors": ["dascore/core/coords.py:BaseCoord._select_by_samples", "dascore/utils/misc.py:_to_slice"]}
{"id": "C08", "title": "Ordering by an array of values", "statement": "order(values) returns a coordinate listing, for each requested value in the requested order, every occurrence of it in the coordinate, skipping values the coordinate does not have; the indexer maps original positions to that result.", "quantifier": "every ascending, descending or unsorted coordinate, every requested value array, every valid argsort", "why_tests_cant": "duplicates and missing values in arbitrary arrays", "anchors": ["dascore/core/coords.py:BaseCoord.order", "dascore/core/coords.py:BaseCoord._order_by_value_array", "dascore/core/coords.py:BaseCoord._get_value_index", "dascore/utils/misc.py:_maybe_array_to_slice"]}
{"id": "C09", "title": "Sorting a coordinate", "statement": "sort(reverse) returns a coordinate whose values are the same multiset in ascending (descending) order, and an indexer that takes the original values to the sorted ones; sorting a sorted coordinate is a no-op.", "quantifier": "every evenly sampled, monotonic or unsorted coordinate, both directions", "why_tests_cant": "all arrays", "anchors": ["dascore/core/coords.py:CoordRange.sort", "dascore/core/coords.py:CoordArray.sort"]}
{"id": "C10", "title": "get_coord keeps the values it is given", "statement": "get_coord(data=array).values equals array, and the flags sorted, reverse_sorted and evenly_sampled describe those values truthfully.", "quantifier": "every 1-D integer/time array", "why_tests_cant": "the classification depends on every difference in the array", "anchors": ["dascore/core/coords.py:get_coord", "dascore/utils/misc.py:all_diffs_close_enough"]}
{"id": "C11", "title": "Coordinate flags stay truthful under every operation", "statement": "After any sequence of select/order/sort/index operations on a coordinate, a coordinate that reports sorted is ascending, one that reports reverse_sorted is descending and one that reports evenly_sampled has a constant step.", "quantifier": "all operation sequences on all coordinates", "why_tests_cant": "histories of operations are unbounded", "anchors": ["dascore/core/coords.py:CoordArray.__getitem__", "dascore/core/coords.py:CoordMonotonicArray.sorted", "dascore/core/coords.py:BaseCoord.order"]}
{"id": "C12", "title": "update_limits moves the coordinate as asked", "statement": "update_limits(min=m) gives a coordinate of the same length and step whose minimum is m; update_limits(max=m) one whose maximum is m; update_limits(step=s) keeps start and length with the new step; update_limits(min, max) keeps the length; three arguments raise.", "quantifier": "every evenly sampled or array coordinate and every limit", "why_tests_cant": "all lengths, signs and limit values", "anchors": ["dascore/core/coords.py:CoordRange.update_limits", "dascore/core/coords.py:CoordArray.update_limits"]}
{"id": "C13", "title": "change_length changes only the end", "statement": "change_length(n) returns a coordinate with exactly n samples, the same start and step, whose first min(n, old) values are unchanged; negative n raises.", "quantifier": "every evenly sampled coordinate and n", "why_tests_cant": "all lengths", "anchors": ["dascore/core/coords.py:CoordRange.change_length", "dascore/core/coords.py:_validate_new_length"]}
{"id": "C14", "title": "snap keeps length and end points to within rounding", "statement": "snap() of a 1-D array coordinate with distinct min and max returns an evenly sampled coordinate of the same length starting at the min (max if descending), with step equal to span/(n-1) rounded to the nearest nanosecond, so the last value is within (n-1)/2 ns of the original extreme.", "quantifier": "every time array coordinate", "why_tests_cant": "all arrays", "anchors": ["dascore/core/coords.py:CoordArray.snap"]}
{"id": "C15", "title": "align_to returns the common values", "statement": "a.align_to(b) for coordinates without repeated values returns two coordinates with identical values: the ascending intersection of both, with indexers which extract those values from each original.", "quantifier": "all pairs of coordinates", "why_tests_cant": "pairs of arbitrary arrays", "anchors": ["dascore/core/coords.py:BaseCoord.align_to"]}
{"id": "C16", "title": "get_next_index returns the first sample at or after a value", "statement": "For an ascending coordinate and a value between its min and max, get_next_index returns the smallest index whose value is >= the value; out-of-range values raise unless allow_out_of_bounds; samples=True resolves negative indices like python.", "quantifier": "every ascending coordinate, value and option combination", "why_tests_cant": "all arrays and values", "anchors": ["dascore/core/coords.py:BaseCoord.get_next_index", "dascore/core/coords.py:CoordRange._get_index", "dascore/core/coords.py:CoordMonotonicArray._get_index"]}
{"id": "C17", "title": "get_sample_count covers the requested duration", "statement": "get_sample_count(d) is the smallest n with n*step >= d; with enforce_lt_coord it raises exactly when that exceeds the coordinate length.", "quantifier": "every evenly sampled ascending coordinate and non-negative duration", "why_tests_cant": "all durations", "anchors": ["dascore/core/coords.py:BaseCoord.get_sample_count"]}
{"id": "C18", "title": "Coordinate summary round trip", "statement": "coord.to_summary().to_coord() has the same values, step and start as the original evenly sampled coordinate, ascending or descending.", "quantifier": "every evenly sampled coordinate", "why_tests_cant": "all coordinates", "anchors": ["dascore/core/coords.py:CoordSummary.to_coord", "dascore/core/coords.py:BaseCoord.to_summary"]}
{"id": "C19", "title": "Index array compression is faithful", "statement": "The indexers dascore hands to numpy (an index array possibly replaced by a slice) select exactly the same elements in the same order as the index array they stand for.", "quantifier": "every index array and data length", "why_tests_cant": "all integer arrays", "anchors": ["dascore/utils/misc.py:_maybe_array_to_slice", "dascore/utils/misc.py:_apply_union_indexers"]}
{"id": "C20", "title": "Chunk intervals: size, overlap and coverage", "statement": "Chunk intervals for (start, stop, length, overlap, step): each full interval spans exactly length, consecutive starts differ by length-overlap, each interval ends one step before start+length, the first starts at start, no interval runs past stop, and with keep_partial the whole of [start, stop] is covered; without overlap intervals are disjoint.", "quantifier": "all integer/time limits, chunk lengths, overlaps, steps", "why_tests_cant": "all combinations of sizes", "anchors": ["dascore/utils/chunk.py:get_intervals"]}
{"id": "C21", "title": "Contiguity groups are maximal runs without gaps", "statement": "When merging or chunking, rows (sorted by start) fall in the same group exactly when every consecutive pair between them is separated by no more than tolerance samples; groups are consecutive, disjoint and cover all rows.", "quantifier": "every list of segments, tolerance and step", "why_tests_cant": "all segment histories", "anchors": ["dascore/utils/chunk.py:ChunkManager._get_continuity_group_number", "dascore/utils/chunk.py:ChunkManager.get_instruction_df"]}
{"id": "C22", "title": "Overlap removal keeps every sample once", "statement": "After overlap removal the trimmed segments are disjoint and cover the same samples as the originals.", "quantifier": "every list of segments on a common grid sorted by start", "why_tests_cant": "all overlap patterns including nesting", "anchors": ["dascore/utils/chunk.py:_remove_overlaps", "dascore/utils/pd.py"]}
{"id": "C23", "title": "Chunk instructions: each output chunk is fed by exactly the sources that intersect it", "statement": "For every output interval, the instruction table has one row per source segment which intersects the interval, trimmed to the intersection; nothing else.", "quantifier": "all lists of source and output intervals", "why_tests_cant": "all interval configurations", "anchors": ["dascore/utils/chunk.py:ChunkManager.get_instruction_df", "dascore/utils/chunk.py:ChunkManager._get_source_segments"]}
{"id": "C24", "title": "Merged data is the concatenation of the parts", "statement": "Merging contiguous patches along a dimension yields data whose values along that dimension are the concatenation of the parts' data in order, with a coordinate whose values are the concatenation of the parts' coordinates, whatever way the stream of patches is grouped.", "quantifier": "any number of patches of any lengths", "why_tests_cant": "unbounded sequences", "anchors": ["dascore/core/spool.py:DataFrameSpool._merge_patches_streaming", "dascore/utils/patch.py:_force_patch_merge", "dascore/utils/patch.py:_get_merged_coord"]}
{"id": "C25", "title": "Dataframe filtering", "statement": "filter_df keeps exactly the rows matching every condition: equality / membership / glob for plain columns and, for a (lo, hi) range on a {name}_min/{name}_max pair, exactly the rows whose closed interval meets [lo, hi].", "quantifier": "all tables and all queries", "why_tests_cant": "all tables", "anchors": ["dascore/utils/pd.py:filter_df", "dascore/utils/pd.py:_filter_multicolumn_range"]}
{"id": "C26", "title": "Segment trimming", "statement": "adjust_segments trims each surviving row's interval to the intersection with the query interval, never widens it, and marks exactly the rows it changed.", "quantifier": "all tables and query ranges", "why_tests_cant": "all tables", "anchors": ["dascore/utils/pd.py:adjust_segments"]}
{"id": "C27", "title": "Directory index query never misses an overlapping file", "statement": "Querying the index for a time range returns every indexed row whose interval meets the range.", "quantifier": "all tables and all time ranges", "why_tests_cant": "boundary coincidences", "anchors": ["dascore/utils/hdf5.py:HDFPatchIndexManager._get_kernel_query", "dascore/io/indexer.py:DirectoryIndexer.get_contents"]}
{"id": "C28", "title": "Query cache is transparent", "statement": "Answering a query from the index cache gives the same rows as answering it without cache, for every history of queries.", "quantifier": "all query histories", "why_tests_cant": "histories are unbounded", "anchors": ["dascore/io/indexer.py:DirectoryIndexer.get_contents", "dascore/io/indexer.py:DirectoryIndexer._set_cache"]}
{"id": "C29", "title": "Index update loses no file under any schedule or crash", "statement": "If update() completes, every file whose last modification happened before the update started is in the index, whatever earlier updates, crashes (between any two writes) and concurrent file modifications took place, provided modification times are monotone.", "quantifier": "all interleavings of file writes, updates and crashes", "why_tests_cant": "interleavings and crash points", "anchors": ["dascore/io/indexer.py:DirectoryIndexer.update", "dascore/utils/hdf5.py:HDFPatchIndexManager.write_update"]}
{"id": "C30", "title": "Index update does not duplicate files", "statement": "After any history of updates each file contributes its rows once.", "quantifier": "all histories", "why_tests_cant": "histories", "anchors": ["dascore/io/indexer.py:DirectoryIndexer.update", "dascore/utils/hdf5.py:HDFPatchIndexManager.write_update"]}
{"id": "C31", "title": "Index paths round trip", "statement": "A path stored relative to the base directory and joined with it again gives back the original path.", "quantifier": "all base directories and all paths beneath", "why_tests_cant": "all strings", "anchors": ["dascore/io/indexer.py", "dascore/utils/pd.py:_remove_base_path"]}
{"id": "C32", "title": "Coordinate manager invariant", "statement": "Every manager reachable by any sequence of public operations has, for every coordinate, one known dimension per axis, lengths agreeing with the manager's shape, and a coordinate for every dimension; data of the patch always has that shape.", "quantifier": "all operation sequences", "why_tests_cant": "unbounded histories", "anchors": ["dascore/core/coordmanager.py:CoordManager", "dascore/core/coordmanager.py:get_coord_manager", "dascore/core/patch.py:Patch"]}
{"id": "C33", "title": "Select on a patch keeps data and coordinates aligned", "statement": "patch.select(dim=range,...) returns a patch in which every data element carries the same coordinate labels (dimension and associated coordinates) as before, and which contains exactly the elements whose labels meet all ranges.", "quantifier": "all patches, any dimension count, all ranges", "why_tests_cant": "all shapes and ranges", "anchors": ["dascore/core/coordmanager.py:CoordManager.select", "dascore/core/coordmanager.py:_get_indexers_and_new_coords_dict", "dascore/utils/misc.py:_apply_union_indexers"]}
{"id": "C34", "title": "Sort and order on a patch keep data and coordinates aligned", "statement": "patch.sort_coords / order permutes elements so that each element keeps its labels, and the sorted coordinate is in order.", "quantifier": "all patches", "why_tests_cant": "all shapes", "anchors": ["dascore/core/coordmanager.py:CoordManager.sort", "dascore/core/coordmanager.py:CoordManager.order"]}
{"id": "C35", "title": "Transpose", "statement": "transpose(*dims) permutes axes: element at labels L keeps labels L; transposing back restores the patch; with ... the unnamed dims keep relative order; coordinates are untouched.", "quantifier": "all dims lists", "why_tests_cant": "all permutations", "anchors": ["dascore/core/coordmanager.py:CoordManager.transpose", "dascore/proc/coords.py:transpose"]}
{"id": "C36", "title": "Flip", "statement": "flip(dims) reverses the data along each named dimension and every coordinate associated with it so that each element keeps its labels; flipping twice is the identity.", "quantifier": "all patches and dims", "why_tests_cant": "all shapes", "anchors": ["dascore/core/coordmanager.py:CoordManager.flip", "dascore/proc/coords.py:flip"]}
{"id": "C37", "title": "Rename, drop, squeeze", "statement": "rename_coords changes only names and is undone by the reverse renaming; drop_coords removes only the named coordinates; squeeze removes exactly the length-one dimensions; append_dims then squeeze is the identity.", "quantifier": "all patches", "why_tests_cant": "all shapes", "anchors": ["dascore/core/coordmanager.py:CoordManager.rename_coord", "dascore/core/coordmanager.py:CoordManager.drop_coords", "dascore/core/coordmanager.py:CoordManager.squeeze"]}
{"id": "C38", "title": "Patch processing history", "statement": "Every successful patch function call appends exactly one history entry (or the function's chosen mode), leaves earlier entries untouched, leaves its input unchanged, and raises before calling the function if required dims/coords/attrs are missing.", "quantifier": "all call sequences", "why_tests_cant": "unbounded histories", "anchors": ["dascore/utils/patch.py:patch_function", "dascore/utils/patch.py:_func_and_kwargs_str"]}
{"id": "C39", "title": "Binary operations align patches", "statement": "Combining two patches with an operator gives a patch on the common coordinate values with element-wise results at equal labels, independent of the sample order offsets; incompatible dimensions raise.", "quantifier": "all pairs of patches", "why_tests_cant": "all pairs", "anchors": ["dascore/utils/array.py", "dascore/utils/patch.py:align_patch_coords"]}
{"id": "C40", "title": "Spool indexing and slicing", "statement": "spool[i] for -len <= i < len is the i-th patch, other integers raise IndexError; spool[a:b:c] contains the patches of python list slicing; iteration yields len(spool) patches in order.", "quantifier": "all spools and slices", "why_tests_cant": "all lengths", "anchors": ["dascore/core/spool.py:DataFrameSpool.__getitem__"]}
{"id": "C41", "title": "Spool split partitions", "statement": "split(size) or split(count) yields sub-spools whose concatenation is the spool; with size every part but the last has that many patches; with count there are at most count parts.", "quantifier": "all spools, sizes, counts", "why_tests_cant": "all lengths", "anchors": ["dascore/core/spool.py:DataFrameSpool.split"]}
{"id": "C42", "title": "Spool sort and select commute with content", "statement": "sort is a stable-content permutation in ascending order of the attribute; select keeps exactly matching patches and successive selects equal the intersection.", "quantifier": "all spools", "why_tests_cant": "all tables", "anchors": ["dascore/core/spool.py:DataFrameSpool.sort", "dascore/core/spool.py:DataFrameSpool.select"]}
{"id": "C43", "title": "Format detection order", "statement": "The reader registry yields each registered reader at most once, those matching the file extension first, honouring an explicit format/version; registering duplicates is a no-op; an unknown format raises.", "quantifier": "all registries and requests", "why_tests_cant": "all registration histories", "anchors": ["dascore/io/core.py:_FiberIOManager"]}
{"id": "C44", "title": "Writing then reading a DASDAE file", "statement": "Patches written to one DASDAE file are all read back: one per distinct patch name, with the same data, dims, coordinates and attributes.", "quantifier": "all sequences of patches", "why_tests_cant": "all sequences, all names", "anchors": ["dascore/io/dasdae/core.py", "dascore/io/dasdae/utils.py", "dascore/utils/patch.py:get_patch_names"]}
{"id": "C45", "title": "Time conversions", "statement": "Converting between seconds (integers, floats), datetime64 / timedelta64 in any unit, and duration strings: whole seconds are exact; float seconds become the nearest nanosecond up to one rounding, in order, the same for dates and durations; the trip nanoseconds -> float seconds -> nanoseconds is the identity as far as float64 carries and its error is bounded beyond; null, non-finite and out-of-range input becomes NaT; arrays are converted element by element; a duration's text is read back as that duration.", "quantifier": "all integers, all binary64 floats, all 64-bit times, all units", "why_tests_cant": "2^64 floats and 2^64 times; the limits of exactness are needles no sample finds", "anchors": ["dascore/utils/time.py:to_datetime64", "dascore/utils/time.py:to_timedelta64", "dascore/utils/time.py:to_int", "dascore/utils/time.py:to_float", "dascore/utils/time.py:_float_array_to_ns"]}
{"id": "C46", "title": "Trace alignment (align_to_coord)", "statement": "align_to_coord moves each trace by its shift: output sample at coordinate x of a trace with shift s equals input sample at x - s*step, or the fill value when out of range, for modes same, full and valid; full keeps every input sample; valid has no fill; the reversed full alignment restores the data.", "quantifier": "all shift arrays and lengths", "why_tests_cant": "all shift arrays", "anchors": ["dascore/proc/align.py"]}
{"id": "C47", "title": "Rolling windows", "statement": "rolling(window, step) output k is the function over the window of samples ending at k*step (centre: shifted half a window), NaN where the window is incomplete; output length is ceil(n/step); numpy and pandas engines agree.", "quantifier": "all lengths, windows, steps", "why_tests_cant": "all combinations", "anchors": ["dascore/proc/rolling.py"]}
{"id": "C48", "title": "Fourier coordinate bookkeeping", "statement": "The coordinate attached by dft lists the frequencies of the shifted FFT bins; idft(dft) restores the original coordinate; correlate_shift puts zero lag where the coordinate is zero.", "quantifier": "all lengths and steps", "why_tests_cant": "even/odd lengths without bound", "anchors": ["dascore/transform/fourier.py", "dascore/proc/correlate.py"]}
{"id": "C49", "title": "Padding", "statement": "pad(dim=(a, b)) puts a fill samples before and b after, the original samples keep their coordinate values, and the coordinate stays evenly sampled with n+a+b values; selecting the old range restores the patch.", "quantifier": "all patches and pad widths", "why_tests_cant": "all widths", "anchors": ["dascore/proc/basic.py:pad"]}
{"id": "C50", "title": "Decimate and stride", "statement": "Keeping every k-th sample without filtering keeps samples 0, k, 2k, ... with their labels.", "quantifier": "all lengths and factors", "why_tests_cant": "all lengths", "anchors": ["dascore/core/coordmanager.py:CoordManager.decimate", "dascore/proc/resample.py:decimate"]}
{"id": "C51", "title": "Attribute merging", "statement": "Merging patch attributes keeps values that agree, and for conflicting ones drops / keeps the first / raises exactly as the conflicts mode says; dims and coordinate summaries are merged to the union extent; history conflicts are handled as documented.", "quantifier": "all lists of attribute sets", "why_tests_cant": "unbounded lists", "anchors": ["dascore/utils/attrs.py:combine_patch_attrs"]}
{"id": "C52", "title": "Merging coordinate managers", "statement": "Merging managers along a dimension concatenates that dimension's coordinate and every coordinate associated with it, and requires all other coordinates to agree.", "quantifier": "any number of managers", "why_tests_cant": "unbounded lists", "anchors": ["dascore/utils/coordmanager.py:merge_coord_managers"]}
{"id": "C53", "title": "Frozen mapping", "statement": "FrozenDict lookups equal those of the dict it was created from, mutation of the source does not affect it, new(**kw) returns an updated copy, equal content hashes equally whatever the insertion order.", "quantifier": "all dictionaries", "why_tests_cant": "all histories", "anchors": ["dascore/utils/mapping.py:FrozenDict"]}
{"id": "C54", "title": "Rolling a patch along a dimension", "statement": "roll(dim=k) moves sample i to position (i + k) mod n of that dimension and leaves all other dimensions alone; with update_coord the dimension's coordinate moves with the data, otherwise the manager is unchanged.", "quantifier": "all patches, shifts and lengths", "why_tests_cant": "all shifts, positive and negative, larger than the axis", "anchors": ["dascore/proc/basic.py:roll"]}
{"id": "C55", "title": "Merging patches keeps data and labels together", "statement": "Merging patches along a dimension gives one patch that contains every sample of every patch, each with the label it had along the merged dimension and with the other coordinates unchanged.", "quantifier": "any number of patches of any shapes", "why_tests_cant": "unbounded lists of patches", "anchors": ["dascore/utils/patch.py:_force_patch_merge", "dascore/utils/patch.py:_get_merge_dim", "dascore/utils/patch.py:_get_merged_coord", "dascore/core/spool.py:DataFrameSpool._merge_patches_streaming"]}
{"id": "C56", "title": "Coordinate information among attributes", "statement": "PatchAttrs built from their own dump, or from their flat form, read the same; update changes exactly the attributes or coordinate fields it names, in flat (time_max) or nested form; reading a flat name gives the coordinate's field; renaming a dimension changes only its name.", "quantifier": "all attribute sets and updates", "why_tests_cant": "any names and any number of attributes and coordinates", "anchors": ["dascore/core/attrs.py:PatchAttrs", "dascore/utils/attrs.py:separate_coord_info", "dascore/utils/misc.py:is_valid_coord_str"]}
{"id": "C57", "title": "Concatenating patches", "statement": "concatenate puts the patches that fit the first one end to end along an existing dimension, or side by side along a new one, in order and in groups of the length asked for; each sample keeps its label, no fitting patch is lost, coordinates along the dimension that would be wrong are dropped, misfits are dropped with a warning or refused.", "quantifier": "any number of patches of any shapes, any group length", "why_tests_cant": "unbounded lists of patches and lengths", "anchors": ["dascore/utils/patch.py:concatenate_patches", "dascore/utils/patch.py:check_dims", "dascore/utils/patch.py:check_coords", "dascore/utils/misc.py:yield_sub_sequences"]}
{"id": "C58", "title": "Stacking patches", "statement": "stack adds, position by position and so label by label, exactly the patches whose coordinates agree with the first patch (apart from the labels of the varying dimension); the outcome has the first patch's coordinates, the varying dimension starts at zero.", "quantifier": "any number of patches of any shapes", "why_tests_cant": "unbounded lists of patches", "anchors": ["dascore/utils/patch.py:stack_patches", "dascore/utils/patch.py:check_dims", "dascore/utils/patch.py:check_coords"]}
{"id": "C59", "title": "Aggregating along dimensions", "statement": "aggregate folds every line of samples along each dimension asked for, in place; the dimension keeps one label (its only one, an unknown one, or what dim_reduce makes of the labels) or goes with dim_reduce=squeeze; coordinates along it go, all others stay as they are; unknown dimensions and reductions are refused.", "quantifier": "all patches of any number of dimensions and shapes, all folding functions", "why_tests_cant": "any shapes, orders of dimensions and functions", "anchors": ["dascore/utils/array.py:_apply_aggregator", "dascore/core/coords.py:BaseCoord.reduce_coord", "dascore/utils/patch.py:get_dim_axis_value"]}
{"id": "C60", "title": "Numpy functions applied to patches", "statement": "The outcome of a numpy function is put back with the right labels: an outcome of the same shape keeps them, one that lost the axes of the call gets them back with one (unknown) label and without the coordinates along them, anything else is refused.", "quantifier": "all patches and outcomes of any shape, all axes including negative and repeated ones", "why_tests_cant": "any shapes and axes", "anchors": ["dascore/utils/array.py:_reassemble_patch", "dascore/utils/array.py:_get_dims_and_inds_from_signature", "dascore/utils/array.py:apply_array_func", "dascore/utils/patch.py:swap_kwargs_dim_to_axis"]}
{"id": "C61", "title": "Reading a file with keywords", "statement": "Reading a DASDAE file with keywords gives the patches of a plain read, in order, whose attributes fit the keywords that name attributes, each restricted to exactly the ranges asked for by the keywords that name coordinates; other keywords and None change nothing; no patch that fits is lost.", "quantifier": "all files written by any sequence of writes, all keywords", "why_tests_cant": "any number of patches, coordinates and keywords", "anchors": ["dascore/io/dasdae/core.py:DASDAEV1.read", "dascore/io/dasdae/utils.py:_matches_attr_filters", "dascore/io/dasdae/utils.py:_read_patch", "dascore/io/dasdae/utils.py:_kwargs_empty", "dascore/utils/pd.py:filter_df"]}
{"id": "C62", "title": "Scanning a file and loading from its contents", "statement": "A scan of a DASDAE file describes exactly the patches a read gives, in the same order, with their attributes, dims, coordinate summaries and where they are; loading from the row of the contents that describes a patch gives that patch, with its data and labels.", "quantifier": "all files written by any sequence of writes", "why_tests_cant": "any number of patches, names and attributes", "anchors": ["dascore/io/dasdae/core.py:DASDAEV1.scan", "dascore/io/dasdae/utils.py:_get_patch_content_from_group", "dascore/io/dasdae/utils.py:_get_contents_from_patch_groups", "dascore/clients/filespool.py:FileSpool._load_patch", "dascore/utils/pd.py:_convert_min_max_in_kwargs"]}
{"id": "C63", "title": "Converting units keeps what the numbers stand for", "statement": "Converting data or coordinates to other units of the same dimensionality gives numbers that stand for the same amounts (and back again gives the numbers themselves); lengths, coordinates that are not named and times do not change; other units are refused; simplify_units does the same with base units; set_units changes only the units named.", "quantifier": "all data, units (with magnitudes and offsets), coordinates and sequences of conversions", "why_tests_cant": "any units, including offset units, any coordinates, and any history of earlier conversions, whose factors are cached", "anchors": ["dascore/units.py:convert_units", "dascore/units.py:_get_conversion_factors", "dascore/units.py:get_factor_and_unit", "dascore/proc/units.py:set_units", "dascore/proc/units.py:convert_units", "dascore/proc/units.py:simplify_units", "dascore/core/coords.py:CoordRange.convert_units", "dascore/core/coords.py:CoordArray.convert_units"]}
{"id": "C64", "title": "Limits of filters given as quantities", "statement": "Limits given as frequencies let exactly the components between them pass, limits given as periods (or wavelengths) exactly those with a period between them, whichever of the two are given; limits that do not fit the dimension are refused.", "quantifier": "all limits, units and components", "why_tests_cant": "any units and magnitudes", "anchors": ["dascore/units.py:get_filter_units", "dascore/units.py:get_inverted_quant"]}
{"id": "C65", "title": "Tapering changes only the ends it names", "statement": "taper multiplies the samples whose label is at most the given amount from the first label by the first half of a window of twice their number, those at most the given amount from the last label by the second half, and leaves all other samples and all labels as they are; it is refused if the ends overlap or the end takes all samples.", "quantifier": "all patches, dimensions with ascending labels (evenly sampled or not), amounts, fractions and window functions", "why_tests_cant": "any sampling, any amounts relative to it (including amounts that end between samples), any window, and data of any number of dimensions", "anchors": ["dascore/proc/taper.py:taper", "dascore/proc/taper.py:_get_taper_slices", "dascore/proc/taper.py:_validate_windows"]}
{"id": "C66", "title": "Tapering to ranges", "statement": "taper_range multiplies each sample by the factor of its position along the dimension: zero outside the range, one between the second and third value, the halves of a window between first and second and between third and fourth; factors of several ranges add up; inverted, it is the greatest factor minus the factor, which for one range that keeps something is one minus the factor. Sequences of a wrong length and values that go back are refused.", "quantifier": "all patches, evenly sampled dimensions, sequences of values (absolute, relative or sample numbers, with or without missing ones) and window functions", "why_tests_cant": "any number of ranges, any sampling, values between samples, and any window", "anchors": ["dascore/proc/taper.py:taper_range", "dascore/proc/taper.py:_get_taper_coord_inds", "dascore/proc/taper.py:_get_taper_curve", "dascore/proc/taper.py:_get_range_envelope"]}
{"id": "C67", "title": "A scan reports every file once", "statement": "scan reports, in the order of the listing, what the readers tell about each patch, file and directory below the sources that is not hidden, has the extension and is not older than the time stamp; each item is offered once; a directory taken by a directory format hides its contents; items without a format and corrupt files do not disturb the others. The first other error ends the scan.", "quantifier": "all lists of sources, directory trees, extensions, time stamps, and all readers (as functions from items to answers) whose detection does not depend on which reader was used last", "why_tests_cant": "trees of any depth and order with any mixture of directory formats, files and readers; the generator protocol between the scan and the listing is only seen in the interplay", "anchors": ["dascore/io/core.py:scan", "dascore/io/core.py:_iterate_scan_inputs", "dascore/io/core.py:_handle_missing_optionals", "dascore/utils/misc.py:_iter_filesystem", "dascore/utils/misc.py:iterate"]}
{"id": "C68", "title": "Files are closed", "statement": "When the block of an IOResourceManager ends, normally or by an exception, every handle that was opened in it is closed and handles that were there before are as they were; a type is opened once and stays open, also through inner managers; a reader's method called directly closes what it opened.", "quantifier": "all sources, all programs of requests, inner blocks, caught and uncaught exceptions, all file systems (as functions telling what exists and opens)", "why_tests_cant": "any nesting of managers, order of requests and place of an exception", "anchors": ["dascore/utils/io.py:IOResourceManager", "dascore/utils/io.py:get_handle_from_resource", "dascore/utils/io.py:BinaryReader", "dascore/utils/io.py:TextReader", "dascore/utils/hdf5.py:PyTablesReader", "dascore/io/core.py:_type_caster"]}
{"id": "C69", "title": "Dropping, filling and replacing samples", "statement": "dropna keeps, in order, exactly the labels of a dimension none of whose samples is missing (how any) or not all of whose samples are missing (how all), with their samples and labels; nothing missing is left and dropping again changes nothing. fillna replaces exactly the missing samples, full replaces all. where keeps the samples whose condition holds and replaces the others, with conditions and samples matched by labels if the condition is a patch.", "quantifier": "all patches of any number of dimensions, any set of missing samples, any tests for missing samples, any condition array of the shape of the data, any condition patch that can be lined up", "why_tests_cant": "any pattern of missing samples over any number of dimensions, lengths zero included, and any overlap of labels between patch and condition", "anchors": ["dascore/proc/basic.py:dropna", "dascore/proc/basic.py:fillna", "dascore/proc/basic.py:where", "dascore/proc/basic.py:full"]}
{"id": "C70", "title": "Reading Febus zones", "statement": "Reading a zone of a Febus file gives each block's own rows, without the overlap, one block after the other, with evenly spaced times, cut to the requested distances; no patch if nothing is requested. The zones of a file come in turn. With a time filter the labels are one step late; with a time filter next to a distance filter that keeps only some channels there is never a patch.", "quantifier": "all zones of any number of blocks, rows, overlap rows and channels, all steps below 20 s, all filters open at either end", "why_tests_cant": "the sample files have one overlap and one shape; odd overlaps, one block, or filters that cut in the middle of blocks are not in them", "anchors": ["dascore/io/febus/a1utils.py:_get_data_new_cm", "dascore/io/febus/a1utils.py:_get_block_time", "dascore/io/febus/a1utils.py:_get_time_coord", "dascore/io/febus/a1utils.py:_read_febus"]}
{"id": "C71", "title": "Decoding TDMS samples", "statement": "Interleaved samples of one segment come back as recorded, cut to the requested times and distances; samples stored channel by channel in chunks do so if there is at most one complete chunk followed by an incomplete one. With more complete chunks the samples of the chunks are dealt out in turn.", "quantifier": "all numbers of channels, samples and chunk sizes, all filters", "why_tests_cant": "the sample files have one number of chunks each; the order only shows with two complete chunks, the failure only with no rest", "anchors": ["dascore/io/tdms/utils.py:_get_data", "dascore/io/tdms/utils.py:_get_time_coord", "dascore/io/tdms/core.py:TDMSFormatterV4713.read"]}
{"id": "C72", "title": "Reading Terra15 files", "statement": "With snapped times, reading gives exactly the rows that were recorded - those of an incomplete last block are left out - with evenly spaced labels from the first to the last recorded time, cut to the requested times and distances.", "quantifier": "all recorded times with any number of missing rows at the end, all filters", "why_tests_cant": "any number of missing rows and any cut, also ones that start or end where the recorded rows end", "anchors": ["dascore/io/terra15/utils.py:_read_terra15", "dascore/io/terra15/utils.py:_get_scanned_time_info", "dascore/io/terra15/utils.py:_get_raw_time_coord"]}
{"id": "C73", "title": "Reading and writing SEGY files", "statement": "Reading a SEGY file gives its traces as columns with evenly spaced times and numbered channels, cut to the requested times and channels. Writing a patch and reading it back keeps all samples and the length, with the start cut to whole seconds and a step off by at most 3 ns.", "quantifier": "all numbers of traces and samples, all filters; all steps between 4 ns and 19.9 s", "why_tests_cant": "any cut of times and channels, and the rounding of any step and start", "anchors": ["dascore/io/segy/utils.py:_get_filtered_data_and_coords", "dascore/io/segy/utils.py:_get_coords", "dascore/io/segy/utils.py:_make_time_header_dict", "dascore/io/segy/core.py:SegyV1_0.write"]}
{"id": "C74", "title": "Decoding Sintela packets", "statement": "The samples of a Sintela binary file are the rows of its packets in order, headers left out; a file that is not a whole number of packets is refused.", "quantifier": "all header lengths, packet sizes, channel numbers and numbers of packets", "why_tests_cant": "any number and size of packets", "anchors": ["dascore/io/sintela_binary/utils.py:_load_data", "dascore/io/sintela_binary/utils.py:_get_number_of_packets"]}
{"id": "C75", "title": "Muting a range", "statement": "line_mute along one dimension multiplies by zero exactly the samples select would keep for the same two boundaries, and all others by one; inverted, the other way round. Labels stay. Any other number of boundaries, names that are no dimension, no keyword and more than two are refused.", "quantifier": "all patches of any number of dimensions, all kinds of labels, all boundaries absolute or relative, present or missing", "why_tests_cant": "any kind and order of labels and any boundaries, also on labels, between them and outside; tests use a few ranges on one example patch", "anchors": ["dascore/proc/mute.py:line_mute", "dascore/proc/mute.py:_MuteGeometry1D", "dascore/proc/mute.py:_get_mute_geometry"]}
{"id": "C76", "title": "Muting between two lines", "statement": "line_mute along two dimensions mutes exactly the samples strictly inside the wedge between the two rays given, from the intersection of their lines, or strictly between two parallel lines. A line given by one number runs along the other dimension and is turned round if it points away. Lines without a direction and pairs pointing away from each other are refused.", "quantifier": "all patches with evenly spaced labels of any number of dimensions, all lines given by two points or one number, absolute or relative, both kinds of directions", "why_tests_cant": "the region is decided by signs of products for every sample and every pair of lines; tests look at a few samples of a few wedges", "anchors": ["dascore/proc/mute.py:line_mute", "dascore/proc/mute.py:_MuteGeometry2D", "dascore/utils/misc.py:get_2d_line_intersection"]}
{"id": "C77", "title": "Muting between two slopes", "statement": "slope_mute mutes exactly the samples whose offsets from the first labels have a ratio strictly between the two slopes, zero and infinity included. Negative slopes and unsorted labels are refused.", "quantifier": "all patches with evenly spaced ascending labels whose first two dimensions are named in order, all pairs of slopes that are 0, above 1e-8 or infinite", "why_tests_cant": "holds for every sample and every pair of slopes, equal or nearly equal ones included, where the code takes another branch", "anchors": ["dascore/proc/mute.py:slope_mute"]}
{"id": "C78", "title": "Derivatives", "statement": "differentiate (order 2) replaces every sample, along one dimension after the other, by the slope of the parabola through itself and its neighbours (the outermost three at the ends), whatever the spacing and order of the labels; with a step the neighbours are that many samples away. Coordinates stay. Parabolas are differentiated exactly. Names that are no dimension and unsorted labels give CoordError, too few samples ValueError, a step along several dimensions ParameterError.", "quantifier": "all patches of any number of dimensions and lengths, evenly or unevenly spaced labels ascending or descending, times included, all steps, any list of dimensions", "why_tests_cant": "tests differentiate a few functions on one grid; the step code cuts the line into interleaved parts whose lengths depend on the remainder, which only matters for particular lengths", "anchors": ["dascore/transform/differentiate.py:differentiate", "dascore/transform/differentiate.py:_strided_diff", "dascore/transform/differentiate.py:_grad_diff", "dascore/utils/patch.py:_get_dx_or_spacing_and_axes"]}
{"id": "C79", "title": "Integrals", "statement": "integrate replaces every sample by the sum of the trapezoids before it, along one dimension after the other; the definite integral is the sum of all, keeps the dimensions with one label each, the mean of the old ones, adds coordinates with the old limits and drops what was measured along the shortened dimensions. Other names and unsorted labels give CoordError.", "quantifier": "all patches of any number of dimensions, evenly or unevenly spaced labels ascending or descending, any list of dimensions; for the definite one each named once", "why_tests_cant": "tests integrate evenly spaced data or along the last dimension; the result for uneven labels along another dimension depends on whether two lengths happen to match", "anchors": ["dascore/transform/integrate.py:integrate", "dascore/transform/integrate.py:_get_definite_integral", "dascore/transform/integrate.py:_get_indefinite_integral", "dascore/transform/integrate.py:_quasi_mean"]}
{"id": "C80", "title": "Strain rates", "statement": "velocity_to_strain_rate with an even number of samples as gauge is the derivative along distance with half that step, and tells the gauge length; the edgeless variant is the difference of samples a gauge apart over their distance, labelled with the middle between them, and drops other coordinates along distance. Where both have a value it is the same. Odd or non-positive gauges, other data types, missing or uneven distances are refused, each with its own error.", "quantifier": "all patches with evenly spaced distances of any number of dimensions, all gauges up to a third of the length, for the edgeless variant below the length", "why_tests_cant": "agreement of the two functions for every gauge and sample; tests compare one or two gauges", "anchors": ["dascore/transform/strain.py:velocity_to_strain_rate", "dascore/transform/strain.py:velocity_to_strain_rate_edgeless"]}
{"id": "C81", "title": "Moving windows", "statement": "moving_window with scipy makes every element of the w elements around it (shifted by the origin) in the line continued beyond its ends as the mode says; with bottleneck of the elements inside the line only, NaN if fewer than min_count, near the end of the window that ends at the element. Away from the ends both engines agree for odd windows. bottleneck is used only if installed, for mode reflect and origin 0, and not for medians of even windows. Empty and too long windows, unknown operations and standard deviations without bottleneck give ParameterError; an origin outside the window and an impossible min_count ValueError.", "quantifier": "all arrays of any number of dimensions, axes, window lengths, operations, modes, origins and least counts", "why_tests_cant": "tests compare the engines on the interior of one array with a tolerance; which elements are read at the ends for each mode and origin is not looked at", "anchors": ["dascore/utils/moving.py"]}
{"id": "C82", "title": "Outlier removal", "statement": "hampel_filter replaces exactly those elements that are further from their local median than the threshold times the median of such distances (or times the machine epsilon where that is zero) by that median, and keeps all others and the coordinates. Exact medians are over the box around the element, reflected at the ends; approximate ones along one dimension after the other. Window lengths are the number of samples that covers the value, made odd. Integers up to 2^24 are treated exactly. Bad thresholds, names, labels and windows are refused.", "quantifier": "all patches of any number of dimensions, all thresholds, window lengths in samples or units, with or without bottleneck; labels ascend when lengths are in units", "why_tests_cant": "tests look at a spike in the middle of small patches; that nothing else changes, what happens at the ends and with large integers is not tested", "anchors": ["dascore/proc/hampel.py", "dascore/utils/patch.py:712-797"]}
{"id": "C83", "title": "Median, Sobel, Gaussian and Savitzky-Golay filters", "statement": "median_filter gives the middle element of the box of the asked lengths around each element; sobel_filter the difference of the neighbours along the dimension, then weights 1, 2, 1 along every other; gaussian_filter the weights along each named dimension in turn; savgol_filter filters only along the dimension named last. Lines are continued as the mode says. Coordinates stay. Unknown modes give FilterValueError, other names ParameterError or PatchCoordinateError.", "quantifier": "all patches of any number of dimensions, all modes and constants, lengths in samples or units", "why_tests_cant": "tests check shapes and that something changed", "anchors": ["dascore/proc/filter.py:53-78", "dascore/proc/filter.py:159-267", "dascore/proc/filter.py:337-465"]}
{"id": "C84", "title": "Detrending", "statement": "detrend subtracts from every line along the dimension the straight line (or constant) that leaves the least sum of squares; the rest has mean zero, coordinates and shape stay. Patches that differ only by trends come out equal, detrending twice is detrending once. Unknown dimensions give ParameterError, unknown types ValueError.", "quantifier": "all patches of any number of dimensions, all dimensions, types linear, l, constant, c", "why_tests_cant": "tests check that the mean of one random patch is near zero; that the line taken away is the best one is not tested", "anchors": ["dascore/proc/detrend.py"]}
{"id": "C85", "title": "Kurtosis", "statement": "kurtosis gives for every element the fourth central moment over the squared variance of the part of the window around it that lies in the line, or NaN where that part is constant, so never less than one. With recursive=True it is the fading mean, with 1-1/window as factor, of the fourth powers of the distances to the fading mean over the square of the larger of the fading variance and the variance of the line; NaN for lines of zeros. Windows are the number of samples that covers the value. Windows of less than two samples, wrong numbers of dimensions and unknown dimensions are refused.", "quantifier": "all patches of any number of dimensions, all evenly sampled dimensions of either direction, all windows in samples or units", "why_tests_cant": "tests check shapes and that a burst stands out", "anchors": ["dascore/transform/kurtosis.py"]}
{"id": "C86", "title": "Slant stacks", "statement": "tau_p gives for every slowness and start time the sum over the traces of what is read off them, linearly between samples, along the line of that slowness; negative slownesses come first in reverse and start at the last place. Velocities must be positive and rise (ParameterError), time must be evenly sampled (CoordError), both dimensions must be there (PatchCoordinateError).", "quantifier": "all patches with dimensions distance and time, all lists of velocities", "why_tests_cant": "tests look at the slowness of the largest value for one synthetic wave; tests with unevenly spaced channels and with time first do not compare values", "anchors": ["dascore/transform/taup.py"]}
{"id": "C87", "title": "Cells of coordinates with gaps", "statement": "get_gap_edges gives every label of a strictly rising or falling coordinate one cell that contains it. Intervals longer than the factor times the median interval are gaps; other neighbours share the edge halfway between them, cells at a gap reach half the median interval from their labels, the outermost cells are symmetric. With a factor of at least one (or none) cells do not overlap. A single label gets a width of one or a day, no labels raise IndexError. is_monotonic_and_finite is true just for finite labels that strictly rise or fall.", "quantifier": "all lists of labels of any length, all factors, times and numbers", "why_tests_cant": "tests compare edges of a few short lists, all rising and with factors above one", "anchors": ["dascore/utils/gaps.py"]}
{"id": "C88", "title": "Limits of filters", "statement": "pass_filter asks scipy for a band, high or low pass filter along the axis of the named dimension, with limits relative to the highest frequency 1/(2 step); quantities count as the frequencies get_filter_units makes of them. FilterValueError for other than one dimension, other than two limits, no limits, limits below zero, beyond the highest frequency or out of order; CoordError for unknown dimensions, CoordDataError for uneven coordinates. notch_filter does the same for one frequency of each named dimension.", "quantifier": "all patches, dimensions and limits", "why_tests_cant": "tests try a few wrong limits on one patch with rising coordinates", "anchors": ["dascore/proc/filter.py", "dascore/utils/misc.py", "dascore/utils/patch.py"]}
{"id": "C89", "title": "Slopes of slope_filter", "statement": "On transformed patches slope_filter multiplies every element by a weight that depends on its slope f/k: one from the second to the third limit, zero outside of the first and the last, rising and falling between; invert gives one minus that, directional keeps the sign of slopes. Other than four limits, arrays of limits out of order and missing dimensions raise ParameterError.", "quantifier": "all arrays of any number of dimensions, all frequencies and wavenumbers, all limits", "why_tests_cant": "tests filter synthetic waves and look for changes; the weights are not compared", "anchors": ["dascore/proc/filter.py"]}
{"id": "C90", "title": "What waterfall draws where", "statement": "For labels that strictly rise or fall and are not all evenly spaced waterfall draws a mesh with the edges of get_gap_edges: every sample is in the cell of its two labels, nothing is drawn in any other cell (gaps are masked), and the mesh has one edge more than cells in both dimensions. Otherwise it draws the data as an image from the smallest to the largest label, or over positions when there are no labels; rising evenly spaced labels are inside of the pixels of their samples. Gap factors that are not finite or not above 1 and patches without two dimensions (leaving out those of length one) raise ParameterError.", "quantifier": "all patches of two dimensions, all gap factors, with and without a gap color", "why_tests_cant": "tests compare the mesh of two or three small patches; that every sample keeps its place for any pattern of gaps is not compared", "anchors": ["dascore/viz/waterfall.py", "dascore/utils/plotting.py"]}
{"id": "C91", "title": "Color limits of waterfall", "statement": "Without a scale the color limits are Tukey's fence: the quartiles moved out by 1.5 interquartile ranges but not past the data. One relative number gives the mean plus and minus that part of half of the range, two give parts of the range; absolute numbers are taken as they are, a single one with both signs. Unknown scale types, zero, negative or unordered pairs and longer sequences raise ParameterError.", "quantifier": "all finite non-empty data and all scales", "why_tests_cant": "tests check a few values for one patch; quartiles between samples and constant data are hardly tried", "anchors": ["dascore/viz/waterfall.py", "dascore/utils/misc.py"]}
{"id": "C92", "title": "Centred and normalized data", "statement": "demean and demedian take one number off every line along the dimension, its mean or median without NaN, after which the mean (median) is zero. normalize divides every line by one positive number after which its l1 norm, l2 norm or largest absolute value is one; lines of zeros (and NaN) are unchanged; bit gives the signs. standardize gives mean zero and variance one. NaN stays NaN and nothing else becomes NaN, except that standardize makes lines without any variance NaN. Coordinates are unchanged. Unknown dimensions raise CoordError, unknown norms ValueError.", "quantifier": "all patches of real data with NaN anywhere, all dimensions and norms; for l2 and standardize all lines whose root is known", "why_tests_cant": "tests normalize one random patch and check sums to a tolerance; lines of NaN and zeros are single cases", "anchors": ["dascore/proc/basic.py"]}
{"id": "C93", "title": "Equal patches", "statement": "Patch.equals never fails and is True just if both patches have the same dimensions in the same order, the same public coordinates (dimensions and those without a leading underscore) near each other, the same compared attributes (two nulls are the same) and equal or, if asked, close data of the same shape. Anything which is not a patch is not equal. A patch is equal to itself just if there is no NaN in its data and no NaT in its coordinates. With the very same coordinates equality goes both ways. Equal patches are close; patches equal in all attributes are equal in the required ones.", "quantifier": "all pairs of patches as the constructor builds them, both options", "why_tests_cant": "tests compare some changed copies of one patch", "anchors": ["dascore/proc/basic.py", "dascore/core/coordmanager.py", "dascore/core/coords.py", "dascore/utils/misc.py"]}
{"id": "C94", "title": "Interpolated patches", "statement": "Patch.interpolate with a dimension and new labels gives a patch with these labels along the dimension. Coordinates that depend on it are dropped if its length has changed, all others stay. Every value is on the line through the values at the two neighbouring labels, outside of all labels on that of the two nearest ones. So values at old labels are kept, straight lines stay straight lines, and values inside are between their neighbours, in whichever order the labels are. Without new labels those of the snapped coordinate are used. Other keywords are refused with ParameterError.", "quantifier": "all patches, dimensions with at least two different labels in any order, and all lists of new labels", "why_tests_cant": "tests interpolate a few patches and compare shapes", "anchors": ["dascore/proc/resample.py"]}
{"id": "C95", "title": "Functions mapped over spools", "statement": "Spool.map gives the values of the function for all entries in order, leaving out those without a patch; the first error ends it. With a client that keeps the order the outcome is the same, errors included, for every positive size of the pieces and without a size, if no two entries share a source. Without a size there are no more pieces than processors. A size that is not positive never ends.", "quantifier": "all spools, functions (which may fail), clients which keep the order, sizes and numbers of processors", "why_tests_cant": "tests map two functions over one spool with one client", "anchors": ["dascore/core/spool.py", "dascore/utils/misc.py"]}
{"id": "C96", "title": "Patches as dataframes", "statement": "patch_to_dataframe turns a patch of two dimensions into a dataframe with its data, its labels and its dimensions as names; other patches are refused. dataframe_to_patch turns a named dataframe into a consistent patch with these data and labels. So a patch made of its own dataframe has the same data, dimensions and labels, and a dataframe comes back as it was unless its labels are slightly uneven. Names that are missing are taken from the attributes, without them ValueError is raised.", "quantifier": "all patches of two dimensions and all dataframes", "why_tests_cant": "tests convert one example patch", "anchors": ["dascore/utils/pd.py"]}
{"id": "C97", "title": "Method namespaces", "statement": "The registry has the namespace class defined last for each group and name. An attribute a patch or spool does not have gives the last class with this name in its own group, after the entry point of that name has been loaded, and AttributeError if there is none; afterwards the same object always gives the same namespace. Entry points are loaded at most once. A warning is given exactly by the classes that take the place of an earlier one. Public functions of a namespace get the host object, private ones the namespace, also when they are inherited.", "quantifier": "all sequences of class definitions and attribute accesses, all entry points", "why_tests_cant": "tests define one or two namespaces and the registry is shared by the whole process", "anchors": ["dascore/utils/namespace.py", "dascore/utils/plugins.py"]}
{"id": "C98", "title": "Arguments that name dimensions", "statement": "The dimensions a patch method is asked for by positional names, by dim, coord, dims or coords, or by keywords are all found, in this order, each with its axis and the value of its keyword, and nothing else is found. No dimension is refused, several are refused unless allowed, and so are things which are no dimensions. Where one dimension is allowed the whole answer is about one dimension.", "quantifier": "all dimensions, positional arguments and keywords", "why_tests_cant": "tests try a few of the ways to name a dimension", "anchors": ["dascore/utils/patch.py"]}
{"id": "C99", "title": "Deep equality", "statement": "deep_equality_check ends for all objects, also for those that contain themselves, and is False exactly if a difference can be reached: a key only one mapping has, or values under the same keys which equals or == tells apart. It is symmetric if == and equals are, and a mapping is equal to itself even if its values are not (NaN).", "quantifier": "all finite object graphs, all results of == and equals", "why_tests_cant": "tests have a few small dictionaries and one cycle", "anchors": ["dascore/utils/misc.py", "dascore/core/spool.py"]}
{"id": "C100", "title": "Ratio of short-term to long-term averages", "statement": "stalta keeps the coordinates of a patch. Each value is the mean of the last samples of the short window divided by the mean of those of the long window, both ending at that sample, and NaN until the long window is full. Constant data have the ratio one, data without negative values a ratio of at most the ratio of the window lengths, and a multiple of the data has the same ratios. Other than one dimension with two increasing lengths is refused.", "quantifier": "all patches with an evenly sampled coordinate, all windows in samples or lengths, all rational data with NaN", "why_tests_cant": "tests compare with the same rolling means on one random patch", "anchors": ["dascore/transform/stalta.py", "dascore/utils/misc.py", "dascore/proc/rolling.py"]}
{"id": "C101", "title": "XML read into dictionaries", "statement": "xml_to_dict turns an element without children into its text and an element with children into a dictionary with their tags in order of first appearance. Under a tag is the value of the only child with it, or the list of the values of all of them in order. All texts of elements without children are kept. Two results are equal exactly if the elements differ only by the outermost tag, the text beside children and the order of children with different tags.", "quantifier": "all trees of elements", "why_tests_cant": "tests have a few trees of depth two", "anchors": ["dascore/utils/xml.py", "dascore/io/xml_binary/utils.py"]}
{"id": "C102", "title": "Attributes of operators on two patches", "statement": "An operator on two patches gives every attribute of either, with the value of the first patch that has it. It is refused with IncompatiblePatchError exactly if both patches have an attribute with unequal values which is not ignored, unless their attributes count as equal (missing values equal, names with an underscore in front left out); then the result has those of the first patch. Which patch is first matters only for ignored attributes.", "quantifier": "all pairs of attribute objects whose names cannot be taken for coordinate information, all sets of ignored names", "why_tests_cant": "tests have a few attributes and no missing values", "anchors": ["dascore/utils/patch.py", "dascore/utils/array.py", "dascore/utils/models.py", "dascore/utils/attrs.py"]}
{"id": "C103", "title": "Attributes read by name", "statement": "h5_matches_structure says whether a file has every object and attribute of a structure; it fails (AssertionError) only for an address with two or more dots which follows addresses that are all there. extract_h5_attrs gives exactly the new names of the map, each with the value at the last address mapped to it, bytes as text, arrays of one element as that element, replaced as asked; it fails only with KeyError for a missing attribute, AssertionError for an address not of an attribute, or TypeError for an array that is not a single value, and cannot fail for single values after a check of the structure. maybe_get_items gives exactly the new names whose items are there and not None, with their values, and never fails.", "quantifier": "all files, structures, name maps and replacements", "why_tests_cant": "tests read the files of the test data only", "anchors": ["dascore/utils/hdf5.py", "dascore/utils/misc.py"]}
{"id": "C104", "title": "Arguments of whiten", "statement": "whiten accepts its arguments exactly if the keywords mean one dimension of the patch, transformed or not (time if there are none), the smoothing size is positive and below the largest frequency with a water level that is a float from 0 to 1, and neighbouring frequencies of the range are at least two steps apart; all others give ParameterError. Accepted ranges increase. Names of transformed dimensions are those stated, and the inverse gives names back unless they start with ift_ft_.", "quantifier": "all dimensions, keywords, smoothing sizes, water levels and frequency ranges (rationals)", "why_tests_cant": "tests try a handful of bad arguments", "anchors": ["dascore/proc/whiten.py", "dascore/utils/transformatter.py"]}
{"id": "C105", "title": "Smoothing of masks", "statement": "The widths and axes given to the Gaussian filter of a mask are those of the dimensions for which smoothing is asked, in the order of the mask, each with the number of samples meant: none, the number given, the fraction of the length rounded to the nearest (even) integer, or the sample count of a quantity. Parameters are refused only for names that are not dimensions of the mask, floats outside 0 to 1 (ParameterError) or quantities without sample count. Fractions are never wider than the dimension.", "quantifier": "all distinct dimensions with axes, all smoothing parameters (single or per dimension)", "why_tests_cant": "tests use a few smoothing values in dimension order", "anchors": ["dascore/proc/mute.py"]}
{"id": "C106", "title": "Dimensions and coordinates of short-time Fourier transforms", "statement": "stft puts the frequency in the place of the dimension, which becomes the last, with the new coordinates, the window, the old coordinate, and the others that are not along the dimension; istft puts it back in the place of the frequency, in whatever order the dimensions are. If all coordinates are those of dimensions, istft of stft has the dimensions and coordinates of before. With a coordinate that is not that of a dimension and does not belong to the transformed one, istft gives CoordError. The axis along which istft trims is that of the restored dimension exactly if the frequency comes before the time.", "quantifier": "all lists of distinct dimensions, all coordinate maps, values of any type", "why_tests_cant": "tests invert patches without other coordinates and in one order of dimensions", "anchors": ["dascore/transform/fourier.py", "dascore/core/coordmanager.py", "dascore/utils/transformatter.py"]}
{"id": "C107", "title": "Conversions to and from ObsPy streams", "statement": "A patch with time and another dimension gives a stream with one trace for each value of the other, with the samples in order of time, the times of the patch, the value and the attributes; two dimensions without time are refused. A stream gives a patch exactly if all traces have the same number of samples and the stat; it has a row for each trace, and time and attributes of the last one. Other streams are refused, and the empty one gives the empty patch. Converted to a stream and back, a patch has the same samples, coordinates and attributes, with time last, apart from six names of ObsPy.", "quantifier": "all patches with two dimensions, samples and attributes of any type, all streams", "why_tests_cant": "tests convert one or two patches, and streams made from patches", "anchors": ["dascore/utils/io.py"]}
{"id": "C108", "title": "Recognising Febus files and listing their parts", "statement": "Febus files have an instrument, names of sources that start with Source, and four attributes in each source; other files get no version. The version of Febus files is 1 if no source has one, otherwise the first number of that of the last source having one; if they agree in it, the order of sources is irrelevant. Listing a file gives its zones in order, apart from the times, with the only dataset of each, and fails with an assertion exactly if a zone does not have one dataset.", "quantifier": "all files with any instruments, sources, attributes, versions and zones", "why_tests_cant": "tests read a few files of one instrument and one source", "anchors": ["dascore/io/febus/a1utils.py"]}
