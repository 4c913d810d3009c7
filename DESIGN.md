# Formal model of DASDAE/dascore in Rocq

## Approach

The model is a set of total, computable Gallina functions that mirror the Python
functions branch by branch. Exceptions are values (`Err e`, with the exception
classes of `Base.exn`). Every definition carries a comment citing the file and
lines it models and any simplification. Model files contain no proofs. Each area
has these files:

* `XModel.v`: the functions of the code;
* `XSpec.v`: a small, independent specification (plain lists, filters, maps);
* `XProofs*.v`: lemmas;
* `XProps.v`: the property theorems, each closed by one lemma, each followed by
  `Print Assumptions`, with witness `Example`s that satisfy the hypotheses.

Theorem names carry the property id. A suffix `_partial` marks a theorem that
covers only part of its property. A suffix `_refuted` marks a counterexample: the
faithful model violates the property as stated in `properties.jsonl`, and the
theorem exhibits the input. The other theorems of the same property then say
exactly when it does hold.

## Number model

Coordinate values are integers (`Z`). This is exact for integer coordinates and
for `datetime64[ns]` / `timedelta64[ns]` coordinates, apart from int64 overflow.
Quotients the code computes in float64, such as `(stop-start)/step`, are exact
rationals here, and `np.round(x, k)` is exact round-half-even. The float64
rounding error of the quotient itself is outside the model. Float-valued
coordinates are outside the model unless a file says otherwise. `TimeModel.v` is
the exception: its floats are IEEE 754 binary64 and its integers wrap.

## Trusted base

* Coq 8.16.1's kernel (and `coqchk`, which re-checks every module).
* `Print Assumptions` of every property theorem except those of C45 answers "Closed
  under the global context": no axiom, neither of ours nor of the standard library,
  is used. The theorems of C45 (`TimeProps.v`) reason about binary64 floats with
  Flocq and list the standard library's four axioms behind the real numbers:
  `ClassicalDedekindReals.sig_forall_dec`, `ClassicalDedekindReals.sig_not_dec`,
  `FunctionalExtensionality.functional_extensionality_dep`, `Classical_Prop.classic`.
  (The ssr library loaded through the standard library declares the seven
  `Coq.ssr.ssrunder.Under_rel` parameters; no theorem depends on them.)
* The transcription from Python to Gallina, definition by definition, as cited in
  the comments. It was made by reading the source; the code was not run. Where
  the repository's unit tests state expected values, `Example`s in the model and
  property files check the model against them.
* The numpy / pandas / python primitives of `Base.v`, `NdModel.v` and the headers
  of the model files (slicing, `searchsorted`, `argsort`, `drop_duplicates`,
  joins, `groupby`): modelled from their documentation.

## What is modelled

| model file | code |
|------------|------|
| `CoordModel.v` | `core/coords.py`: `CoordRange`, `CoordMonotonicArray`, `CoordArray`, `CoordPartial` (length only); `get_coord` from data and from start/stop/step; select (values, samples, relative, arrays), order, sort, index lookup, `update_limits`, `change_length`, `snap`, `align_to`, `get_next_index`, `get_sample_count`, `to_summary`, equality; `utils/misc.py` `_maybe_array_to_slice`, `all_close` |
| `ChunkModel.v` | `utils/chunk.py` complete (`get_intervals`, `ChunkManager`), overlap removal of `utils/pd.py`, streaming merge of `core/spool.py` |
| `FrameModel.v` | `utils/pd.py`: `filter_df`, `adjust_segments`, `split_df_query`, path handling; `utils/misc.py` `sanitize_range_param`, `broadcast_for_index` |
| `IndexModel.v` | `io/indexer.py` and `utils/hdf5.py`: kernel query, query cache, the update transition system with crashes and interleaved updaters |
| `NdModel.v` | N-dimensional arrays (shape + flat data): take, transpose, reshape, broadcasting |
| `CmModel.v` | `core/coordmanager.py`: construction, select, order, sort, transpose, rename, drop, squeeze, append/set dims, update; `proc/coords.py`, `proc/basic.py` (flip, roll, update), `proc/resample.py` decimate without filter |
| `SpoolModel.v` | `core/spool.py` `DataFrameSpool` / `MemorySpool`: tables, indexing, slices, arrays, split, sort, select, contents, chunk, loading with trimming |
| `ProcModel.v` | `proc/align.py` `align_to_coord`; `proc/basic.py` `pad`; `proc/rolling.py` both engines; `utils/patch.py` `get_window_axis_step` |
| `FourierModel.v` | `transform/fourier.py` `dft`, `idft` and helpers; `utils/transformatter.py`; `proc/correlate.py` `correlate_shift`; numpy's transforms and fast lengths are parameters |
| `RegistryModel.v`, `RegistryShipped.v` | `io/core.py` `_FiberIOManager`: registering, loading plugins, the order readers are tried in, detection, with all caches; the shipped readers and entry points of `pyproject.toml`; set iteration order and what a reader says about a file are parameters |
| `MapModel.v` | `utils/mapping.py` `FrozenDict` in a heap of python dictionaries: construction, lookup, `new`, hashing with its cache, equality |
| `MergeModel.v` | `utils/coordmanager.py` `merge_coord_managers` (units not modelled); `utils/patch.py` `_get_merge_dim`, `_get_merged_coord`, `_force_patch_merge` (attributes not modelled) |
| `TimeModel.v` | `utils/time.py`: `to_datetime64`, `to_timedelta64`, `to_int`, `to_float` on numbers, numpy times, strings and arrays, with binary64 arithmetic (Flocq) and wrapping int64 |
| `AttrsModel.v` | `utils/attrs.py` complete (`combine_patch_attrs`, `separate_coord_info`) with `utils/misc.py` `is_valid_coord_str`; `core/attrs.py` `PatchAttrs` construction, dumps, `update`, `flat_dump`, `rename_dimension`, `__getattr__`; values are numbers, text, text sequences, None and a missing value (NaN/NaT), every number counts as one type |
| `HistoryModel.v` | `utils/patch.py` 58-309: `_format_values`, `_func_and_kwargs_str` (with `inspect.getcallargs` and `repr`), `_get_history_str`, `check_patch_coords`, `check_patch_attrs`, `patch_function`; `update_attrs` of `proc/basic.py` with the attribute part of `update_from_attrs` and `Patch.__init__`; patches are objects in a heap; leaf values are given by their text |
| `BinOpModel.v` | `utils/patch.py` `align_patch_coords`, `_merge_aligned_coords`; `utils/array.py` `_apply_binary_ufunc` for two patches and for a patch and an array (units and attribute merging not modelled); `make_broadcastable_to`; numpy broadcasting |
| `DasdaeModel.v` | `io/dasdae/core.py` `write`, `read` (no selections, no index) and `io/dasdae/utils.py` 24-198; `utils/patch.py` `get_patch_names` for rows of scanned patches; a file is a list of named groups, HDF5 and PyTables are trusted to give back stored values |
| `ConcatModel.v` | `utils/patch.py` `check_dims`, `check_coords`, `concatenate_patches`, `stack_patches`; `utils/misc.py` `yield_sub_sequences`; `drop_private_coords` (units, attributes and warnings not modelled) |
| `AggModel.v` | `utils/array.py` `_apply_aggregator`, `_reassemble_patch`, `_get_dims_and_inds_from_signature`, `apply_array_func` for `ufunc.reduce`; `core/coords.py` `reduce_coord`; `utils/patch.py` `get_dim_axis_value` (names), `swap_kwargs_dim_to_axis` (units, attributes and data types not modelled) |
| `LoadModel.v` | `io/dasdae/core.py` `read` with keywords, `scan`; `io/dasdae/utils.py` `_matches_attr_filters`, `_read_patch`, `_kwargs_empty`, `_get_patch_content_from_group`, `_get_contents_from_patch_groups`; `io/core.py` `scan_to_df` (one row); `utils/pd.py` `_convert_min_max_in_kwargs`; `clients/filespool.py` `_load_patch` (no index table) |
| `UnitsModel.v` | `units.py` `convert_units`, `_get_conversion_factors` with its cache, `get_factor_and_unit`, `get_inverted_quant`, `get_filter_units`; `core/coords.py` `convert_units`, `set_units`, `simplify_units`, `check_time_units`; `core/coordmanager.py` and `proc/units.py` of the same names; exact rationals; pint as units with a dimensionality, a scale and an offset |
| `TaperModel.v` | `proc/taper.py` complete except for tapers to ranges along unevenly sampled coordinates and percentages; windows are any functions to lists of rationals, the product of a sample and a window value is any function |
| `IoModel.v` | `io/core.py` `scan`, `_iterate_scan_inputs`, `_type_caster`; `utils/misc.py` `_iter_filesystem`; `utils/io.py` and the `get_handle` methods of `utils/hdf5.py`. Generators are trees of yielded values and continuations (with or without the signal "skip"), handles are flags in a list; what readers answer is any function |
| `NaModel.v` | `proc/basic.py` dropna, fillna, where and full; the tests for missing samples are any functions; a condition is boolean by its type |
| `ReadModel.v` | how `io/febus/a1utils.py`, `io/tdms/utils.py`, `io/terra15/utils.py`, `io/segy/utils.py` and `io/sintela_binary/utils.py` lay out decoded samples and labels; SEGY writing. Bytes, HDF5 and header attributes are not modelled; times are exact integers |
| `MuteModel.v` | `proc/mute.py` (line_mute for one and two dimensions, slope_mute) with `get_2d_line_intersection`. Floats are exact rationals; no smoothing, no percentages |
| `CalcModel.v` | `transform/differentiate.py` (order 2), `transform/integrate.py`, `transform/strain.py` 17-198, `_get_dx_or_spacing_and_axes` of `utils/patch.py`. Floats are exact rationals; integer data is told apart because some arrays keep its type. No units |
| `MoveModel.v` | `utils/moving.py`, `proc/hampel.py`, the median, Sobel, Gaussian and Savitzky-Golay filters of `proc/filter.py`, `get_patch_window_size` of `utils/patch.py`. Floats are exact rationals; scipy.ndimage and bottleneck are written out from their documentation; the weights of the Gaussian and the smoothing of one line by savgol are parameters |
| `TrendModel.v` | `proc/detrend.py`, `transform/kurtosis.py`, `transform/taup.py`. Floats are exact rationals, a division by zero is NaN; scipy.signal.detrend and scipy.stats.kurtosis are written out from their documentation; distances of a tau-p transform are complete. No units |
| `EdgeModel.v` | `utils/gaps.py`; argument checks of `pass_filter` and `notch_filter`, mask of `slope_filter` (`proc/filter.py`, `check_filter_*` of `utils/misc.py`, `get_dim_sampling_rate` of `utils/patch.py`). Exact rationals; the filters and the Fourier transform are not modelled, only what they are asked for; the taper is any rising function |
| `WaterModel.v` | `viz/waterfall.py`, `_get_extents` of `utils/plotting.py`, `tukey_fence` of `utils/misc.py`. What is handed to matplotlib: image and extents or mesh, edges and masked data; color limits. Exact rationals; texts, colors and the color bar are not modelled; data is finite |
| `ScaleModel.v` | `demean`, `demedian`, `normalize` and `standardize` of `proc/basic.py`. Exact rationals with NaN; the square root is a parameter; complex data, infinities and empty axes are left out |
| `EqualModel.v` | `equals` of `proc/basic.py`, `CoordManager.equals`, `BaseCoord.approx_equal`, `sensible_model_equals` for partial coordinates, `all_close` of `utils/misc.py`. Exact rationals with NaN, times are integers with NaT; infinities and text values are left out; attributes are texts, numbers, null or tuples |
| `InterpModel.v` | `interpolate` of `proc/resample.py` with kind linear, with scipy's `interp1d`. Labels are integers which are all different, data exact rationals without NaN; units are left out |
| `JobModel.v` | `Spool.map` with `_spool_map` and `_MapFuncWrapper` of `utils/misc.py`, on the spools of `SpoolModel.v`. Loading an entry is a function of its rows; the progress bar is left out |
| `TableModel.v` | `patch_to_dataframe` and `dataframe_to_patch` of `utils/pd.py`. Labels are integers; partial coordinates and attributes other than the dimensions are left out |
| `NsModel.v` | method namespaces of `utils/namespace.py` and `utils/plugins.py`: class definitions, the registry, entry points loaded on demand and namespaces kept by objects. Classes have at most one parent; entry points load without errors |
| `AskModel.v` | `get_dim_axis_value` of `utils/patch.py`. The keys which hold names are the default ones; values are names or other hashable things |
| `DeepModel.v` | `deep_equality_check` of `utils/misc.py`, by which spools are compared, on a heap of mappings and other objects. What == and `equals` say about other objects is given |
| `StaModel.v` | `stalta` of `transform/stalta.py` with `check_filter_kwargs` of `utils/misc.py`, on the rolling means of `ProcModel.v`. Data are exact rationals, NaN and infinity one value |
| `XmlModel.v` | `_element_to_dict` of `utils/xml.py`; parsing XML is left out |
| `OpAttrModel.v` | `_merge_models` of `utils/patch.py` as called for operators on two patches (`utils/array.py`), with `==` of attribute objects (`utils/models.py`), on the attributes of `AttrsModel.v` |
| `PickModel.v` | `h5_matches_structure` and `extract_h5_attrs` of `utils/hdf5.py`, `maybe_get_items`, `_maybe_unpack` and `unbyte` of `utils/misc.py`; a file maps addresses to attributes |
| `WhitenModel.v` | argument checks of `whiten` (`proc/whiten.py`) and renaming of transformed dimensions (`utils/transformatter.py`), exact rationals |
| `SigmaModel.v` | `_get_smooth_sigma` of `proc/mute.py`, exact rationals; lengths and sample counts of coordinates are given functions |
| `StftModel.v` | `_get_stft_coords` and `_get_istft_coord` of `transform/fourier.py`: dimensions and coordinates (names, dimensions, values) of short-time Fourier transforms |
| `StreamModel.v` | `patch_to_obspy` and `obspy_to_patch` of `utils/io.py`, for patches with two dimensions; times exact |
| `FebusModel.v` | `_get_febus_version_str` and `_flatten_febus_info` of `io/febus/a1utils.py`; sources in any order, attributes as text |


## Properties

* **C01 Evenly sampled coordinate: construction** (proved). Integer and nanosecond coordinates; quotients are exact rationals, float64 rounding of the quotient is outside the model.
* **C02 Evenly sampled coordinate: slicing equals numpy slicing of the values** (proved). All python slices.
* **C03 Evenly sampled coordinate: range select is the inclusive value filter** (proved). Exact for steps below 2e10 units (20 s for times); the tolerance theorem covers every step.
* **C04 Monotonic array coordinate: range select is the inclusive value filter** (partial). The returned indexer always selects exactly the in-range positions. The returned values are exact unless the selected values are nearly even (all gaps within 0.1% of the median), in which case get_coord snaps them; refuted in that case.
* **C05 Unsorted array coordinate: range select is the inclusive value filter** (partial). As C04, for unsorted arrays.
* **C06 Selecting by an array of values, samples or booleans** (partial). Indexer exact for all coordinates. Values exact for slices and for array coordinates; rebuilding an evenly sampled coordinate through get_coord may snap nearly even values (refuted).
* **C07 Selecting by sample range** (proved). Integers, pairs and unbounded ends, all coordinate kinds including coordinates without values.
* **C08 Ordering by an array of values** (partial). Holds for every argsort numpy may use. Values exact except when nearly even (refuted). Negative sample indices: the index array is only shown faithful for non-negative entries.
* **C09 Sorting a coordinate** (partial). Evenly sampled coordinates sort exactly; array coordinates sort exactly unless nearly even (refuted).
* **C10 get_coord keeps the values it is given** (partial). Full statement refuted: nearly even values are snapped. Proved: exact values when spread, same length, same first value, class flags, the drift bound and its unboundedness.
* **C11 Coordinate flags stay truthful under every operation** (partial). Holds for every history of operations that does not order a monotonic array; refuted for that operation because the class is kept.
* **C12 update_limits moves the coordinate as asked** (partial). Per-argument theorems; refuted for a minimum on a descending coordinate and for both limits given (exclusive stop, length change by truncated step). A step of zero is accepted and collapses the length (refuted).
* **C13 change_length changes only the end** (partial). Proved for time coordinates and for integer coordinates where the change is larger than the all_close tolerance; refuted otherwise.
* **C14 snap keeps length and end points to within rounding** (proved). Time coordinates (integer-nanosecond step).
* **C15 align_to returns the common values** (partial). Duplicate-free coordinates that == tells apart; values represented as in C10. Coordinates that == does not tell apart come back unchanged, which is alignment for times and refuted for integer arrays within 1e-5 of each other.
* **C16 get_next_index returns the first sample at or after a value** (partial). Ascending coordinates. Refuted for the first value of a monotonic array.
* **C17 get_sample_count covers the requested duration** (proved). Ascending coordinates, non-negative durations.
* **C18 Coordinate summary round trip** (proved). Evenly sampled coordinates.
* **C19 Index array compression is faithful** (proved). Non-negative in-range index arrays of any length.
* **C20 Chunk intervals: size, overlap and coverage** (partial). Non-negative steps. Full coverage with keep_partial is false: a last chunk of one sample is dropped, and lengths that are not whole steps drop samples (refuted). Coverage of all other samples, disjointness, sizes and errors proved.
* **C21 Contiguity groups are maximal runs without gaps** (partial). Proved for every list of rows and every argsort. Refuted: gaps are detected across all group keys at once, so another key hides a gap; negative steps are never separated.
* **C22 Overlap removal keeps every sample once** (partial). Proved when no row is nested in another; nested rows refuted.
* **C23 Chunk instructions: each output chunk is fed by exactly the sources that intersect it** (partial). Instruction rows exact when trimmed sources are disjoint and the chunk ends lie in a source; refuted for nested, repeated and gapped sources. The chunk table is characterised fully.
* **C24 Merged data is the concatenation of the parts** (proved). Data along the merged dimension, for every estimate of the streaming buffer, and end to end for mergeable groups. Merging of the other coordinates is C52. C24_spool_samples carries this to the spool: every entry of a chunked spool of truthful, evenly sampled, staggered sources loads exactly the samples of the recorded signal between the limits of its row. C24_spool_trimmed is the same after a selection has trimmed the sources to limits inside the stored patches.
* **C25 Dataframe filtering** (partial). Full row-by-row characterisation of filter_df for every table and query of the modelled value types, and of every refusal. Two refuted expectations: None on an existing column matches nothing; ignore_bad_kwargs does not cover <name>_min.
* **C26 Segment trimming** (proved). adjust_segments: rows kept, trimmed interval, untouched cells, the _modified flag, and all error cases.
* **C27 Directory index query never misses an overlapping file** (partial). Partial: the rows returned are exactly the answering ones except those covering the range with an end exactly one second beyond it; such rows are missed (refuted). A bound equal to the epoch is dropped (refuted).
* **C28 Query cache is transparent** (partial). Partial: for every history of one indexer the cache is transparent when no row sticks out of the range on both sides by a second; four refutations (gained row, lost row, ignored read options, updates by another process).
* **C29 Index update loses no file under any schedule or crash** (partial). Proved for every interleaving of file writes, removals, concurrent updates and crashes when mtimes are at most 1 ms coarse. Refuted for coarser mtimes and for update(paths=...).
* **C30 Index update does not duplicate files** (partial). Partial: one undisturbed scan lists every eligible file once and a quiet directory adds nothing. Refuted in general: files within the 1 ms slack are listed twice, rewritten and removed files keep stale rows.
* **C31 Index paths round trip** (partial). Partial: round trip holds exactly when the base path with a slash does not occur again in the relative path; refuted otherwise.
* **C32 Coordinate manager invariant** (partial). Soundness (consistent manager, data of the manager's shape) proved for every patch built and every sequence of the fourteen modelled methods; the validator characterised exactly; what get_coord_manager builds from keywords, dimensions and a shape characterised (C32_given); update_coords characterised for replacing a dimension and adding a coordinate. Refuted: dimension names need not stay distinct (rename, set_dims); a coordinate named like a limit keyword breaks select.
* **C33 Select on a patch keeps data and coordinates aligned** (partial). Exact positions for one request per dimension of every argument type; restriction and order preservation for any request without a negative slice step; two coordinates of one dimension are two selects in the order of their names (C33_two); both refusals. Refuted: reversed slice on a partial coordinate, private coordinate without dimensions.
* **C34 Sort and order on a patch keep data and coordinates aligned** (partial). order and sort characterised for every argsort that returns a sorting permutation; snap_coords on times sorts and then makes the named coordinates even (C34_snap); snapping numbers is not modelled (floats). Refuted: sort by another coordinate leaves a monotone coordinate that claims to be sorted.
* **C35 Transpose** (proved). Both outcomes for every argument list, and transposing back is the identity.
* **C36 Flip** (partial). Flip of any set of dimensions no two of which share a coordinate; twice is the identity. Refuted for two dimensions sharing a 2-D coordinate.
* **C37 Rename, drop, squeeze** (partial). rename/drop/squeeze/append_dims/set_dims characterised with their inverses and refusals. Refuted: swapping two names, renaming onto an existing coordinate, squeezing a patch with only length-one dimensions.
* **C38 Patch processing history** (partial). The patch_function decorator (HistoryModel.v): requirement checks, the call, the history string (inspect.getcallargs, formatting, repr), update_attrs. Patches are objects in a heap, so 'input unchanged' and 'function not called' are statements about the state. C38_appends: the result is what the function gave with its history, the call's entry and the data_type, for patches whose attributes can be told from coordinate information (conforms). C38_same, C38_other, C38_required; C38_sequence: any sequence of calls. C38_entry: the text of an entry; C38_entry_keywords, C38_entry_positional, C38_entry_default: how arguments are passed does not matter. C38_entry_told_apart: two calls with the same entry are calls of the same function with arguments of the same text. The statement as given is false in five ways (C38_*_refuted). Not modelled: validate_call, str/array2string of leaf values, functions whose double-star parameter has another name than kwargs.
* **C39 Binary operations align patches** (partial). BinOpModel.v: align_patch_coords, _merge_aligned_coords, the two-patch and patch/array branches of _apply_binary_ufunc; the operator is any function of two elements. C39_aligned: for patches that can be lined up (operands: at least one shared dimension, comparable labels or a length-1 dimension without labels, not merely transposed) the result has the dimensions of both, the common labels, and at each position the operator on the elements carrying these labels; otherwise only AssertionError. C39_total: no error when only dimensions are shared and the common labels are spread. C39_no_shared, C39_array (numpy stretching, scalars, what grows and what is dropped), C39_array_refuses. Four refuted claims: a transposed operand, a reordered associated coordinate, nearby integer labels, differing extra coordinates. Not modelled: units, attribute merging (C102), extra operator arguments, reduce/accumulate.
* **C40 Spool indexing and slicing** (partial). Entries after any sequence of slices, arrays, sorts and selects on a spool of patches equal the list operations, and load exactly the samples inside every selected range; python negative indices; IndexError exactly outside -2n..n-1; arrays on any spool; slices on any spool without shared sources. Refuted: indices wrap twice, slicing a chunked spool with shared sources repeats samples, chunk() forgets array selection.
* **C41 Spool split partitions** (partial). For a positive step the pieces are the consecutive slices, none empty, and concatenate to the spool; the step from size/count; a step that is not positive never ends. Refuted: count is not always met exactly.
* **C42 Spool sort and select commute with content** (partial). Sorting permutes entries with their parts and orders the column; select keeps and cuts exactly the entries and parts meeting the query; get_contents; C42_leftover: keywords no column answers accumulate over selections. Refuted: selection in a gap of a merged entry, get_contents after a non-indexed keyword, left-over keywords ignored on trimmed rows, sort after a repeated array selection, <column>_max keywords.
* **C43 Format detection order** (partial). Every sequence of definitions, loads and requests, every set order: duplicates ignored, each registered reader at most once, extension matches first, newest version string first, format and version honoured, unknown ones raise, detection takes the first answer; with only the plugins defined, requests are complete and detection does not depend on earlier use or set order; the shipped readers are coherent. Refuted beyond that: version strings compare as text, RSF's extension is split into letters, hints repeat, readers defined late or shadowing a plugin, stale get_fiberio.
* **C44 Writing then reading a DASDAE file** (partial). DasdaeModel.v: a file as named groups of attributes and arrays; _save_patch, _get_attrs, _get_coords, _read_patch, get_patch_names, write and read without selections. C44_sequence: any number of writes, then a read: one patch per name in the order of the names, the last saved under it, with the same data, dims, units and attributes and coordinates inferred from the same values (exactly the same when they are of the kind get_coord infers). C44_keeps: patches that differ in network, station, tag or times to the second all come back. C44_again, C44_names, C44_names_times. Nine refuted claims: stale attribute, stale coordinate, same second, separator, name attribute, path column, coordinate without dims, underscore in a coordinate name, marker in an attribute name. Trusted: HDF5/PyTables give back what was stored, listings sorted by name, how pandas prints times (a parameter). Not modelled: the index table, reading with selections, partly written files, names PyTables reserves.
* **C45 Time conversions** (partial). Floats are Flocq's binary64 and rounding is proved through Flocq's theorems on reals, so these theorems depend on the standard library's axioms of the reals (listed under Trusted base). The limits are sharp: C45_whole_seconds_refuted and C45_round_trip_refuted are at the first (resp. the fifth) integer beyond the proved range. Conversion of a float out of range to int64 is left open by C; the model answers what x86-64 does. Month and year units, pandas containers and the ISO 8601 parser (a parameter) are not modelled.
* **C46 Trace alignment (align_to_coord)** (partial). All shift arrays, lengths and modes: position of every sample, no fill in valid mode, nothing lost in full mode, reversal by samples restores the data. Shifts given as times are rounded differently depending on the other traces, so reversal by times is refuted; so is the documented error for an empty valid range.
* **C47 Rolling windows** (partial). All lengths, windows, steps, both engines, centred or not: which samples each output uses, where NaN stands, coordinates. The engines agree except for centred windows with a step above one (refuted); a one-dimensional patch reduced to one sample loses its axis (refuted); the default engine refuses some three-dimensional patches (refuted). The applied function is a parameter.
* **C48 Fourier coordinate bookkeeping** (partial). All lengths, steps, dimension lists, complex or real, padded or not, for any numpy transform whose inverse undoes it on the transformed shape: coordinates list the frequencies of the shifted bins, data are the shifted bins, the inverse restores data and coordinates; all lags of correlate_shift. Refuted: one complex sample, two single-sample dimensions, descending coordinates, mixed padding, stepwise inverse of a padded transform, lags of one sample or of long odd non-time dimensions. Frequencies are in units of one over length times step; units, other outputs and stft are not modelled.
* **C49 Padding** (partial). All evenly sampled ascending dimensions, by samples or by length, several dimensions at once: widths, fill, kept samples and coordinates, refusals. Descending dimensions and negative lengths are refuted. next_fast_len is a parameter.
* **C50 Decimate and stride** (partial). Positions 0, k, 2k, ... for every positive factor; coordinates sharing the dimension are dropped when they do not fit (refuted expectation), and misaligned for factor -1.
* **C51 Attribute merging** (partial). combine_patch_attrs complete (AttrsModel.v), for attribute sets whose attribute names cannot be mistaken for coordinate information (family) and drop_attrs that leave dims and coords alone. C51_raise and C51_raise_equal give soundness and completeness of raise, C51_raise_conflict the error; C51_drop and C51_keep_first describe the whole result; merged describes the merged coordinate: union extent, middle step, common dtype and units. A given coordinate object and plain dicts as input are modelled but only C51_arguments speaks of them. The values None and NaN, dims and coords conflicts, and defaults in keep_first depart from the statement: six C51_*_refuted theorems show how. History is an attribute like any other here; what keeps it from conflicting is the drop_attrs argument.
* **C52 Merging coordinate managers** (partial). merge_coord_managers complete except units (MergeModel.v). C52_merge describes the whole result for any number of managers without associated coordinates along the dimension; C52_snap the snapping of ranges with a tolerance, both outcomes; C52_conflict and C52_dims_differ the errors. The part of the statement about associated coordinates is false of the code: C52_associated says what it does instead, C52_associated_refuted and C52_last_axis_refuted show it.
* **C53 Frozen mapping** (partial). Every program over a heap of dictionaries: frozen contents never change, lookups are those of the source at that moment, new, cached hashes and equality as stated, equal ones hash equally. Refuted: new raises TypeError when a key is not a string.
* **C54 Rolling a patch along a dimension** (partial). All shifts, both modes; other coordinates of the dimension are not rolled (refuted).
* **C55 Merging patches keeps data and labels together** (partial). join_patches is the merging end of a chunked spool (patch.py _force_patch_merge; the streaming variant differs in the buffer, C24). C55_join_even: exact labels for ranges that continue each other, snapped or not. C55_join: any ascending patches without snapping. C55_descending_refuted concerns descending coordinates handed to the merge; C55_gap_refuted shows what the default snapping does to labels around a tolerated gap. Attributes are C51; units are not modelled; patches are assumed to have their dimensions in the same order. C55_nothing_varies, C55_ambiguous and C55_dims_differ: when the merge is refused or changes nothing.
* **C56 Coordinate information among attributes** (partial). PatchAttrs construction, model_dump, update, flat_dump, rename_dimension and dynamic reading (AttrsModel.v), for attribute names that cannot be mistaken for coordinate information (family, quiet, clear_names) and, in the flat form, dimension names without underscore none of which begins another (flat_names). C56_rebuild: the dump builds the same attributes. C56_update, C56_update_field, C56_update_nested, C56_update_clear: what the four kinds of update change. C56_flat_round: the flat form of attributes whose coordinates are the dimensions. C56_read, C56_rename. The hypotheses are needed: seven C56_*_refuted theorems give real cases outside them. Not covered: updates mixing several kinds of information in one call, and a CoordManager passed to update.
* **C57 Concatenating patches** (partial). ConcatModel.v: check_dims, check_coords, yield_sub_sequences, concatenate_patches with drop_private_coords. C57_along (labels), C57_lengths (no labels, one group), C57_new (new dimension), C57_raise_same, C57_raise_refused, C57_dims_refused, C57_zero_refused. One refuted claim: a negative length loses every patch. Not modelled: units, attributes with the history entry, warnings, labels of different kinds along the dimension (numpy promotes), a lone null label.
* **C58 Stacking patches** (partial). ConcatModel.v: stack_patches with any addition. C58_fixed, C58_vary (labels moved to start at zero), C58_raise_same, C58_raise_refused, C58_no_dim. Two refuted claims, both because check_dims returns True after its warning: a transposed patch is added with labels mixed up, a patch with fewer dimensions is added to every row. Not modelled: units, attributes, warnings, a varying dimension without labels.
* **C59 Aggregating along dimensions** (partial). AggModel.v: _apply_aggregator with any fold of a line of elements, reduce_coord, get_dim_axis_value for names. C59_empty, C59_label (time labels), C59_squeeze, C59_squeeze_all, C59_unknown, C59_other. One refuted claim: dim_reduce="min" and the like fail or lose the label on integer dimensions. Not modelled: units (update_data drops those of the coordinate), attributes, floating-point labels, labels of functions with another type.
* **C60 Numpy functions applied to patches** (partial). AggModel.v: _reassemble_patch for any outcome, _normalize_axes, swap_kwargs_dim_to_axis, ufunc.reduce with any fold. C60_same_shape, C60_reduced, C60_no_axis, C60_ufunc, C60_ufunc_default, C60_ufunc_unknown. Three refuted claims: several dimensions always raise TypeError, np.transpose of a square patch keeps the labels, keepdims=True is refused. Not modelled: the numpy functions themselves, units, attributes, data types.
* **C61 Reading a file with keywords** (partial). LoadModel.v: read, _matches_attr_filters over the model of filter_df, _read_patch with keywords over the model of CoordManager.select, _kwargs_empty. C61_read for any file and keywords (one keyword per dimension, open or numeric ends, text patterns without '['); C61_plain, C61_none. Two refuted claims: an attribute keyword loses a fitting patch without samples; time_min is a KeyError. Not modelled: text patterns against attributes that are None, arrays and slices as keyword values.
* **C62 Scanning a file and loading from its contents** (partial). LoadModel.v: scan, contents row, _convert_min_max_in_kwargs, FileSpool._load_patch. C62_scan: what a scan tells of every patch and in which order, for any file whose names do not clash with those the scan adds. C62_load: the row of a patch loads that patch - samples, labels, units and attributes - if every patch under an earlier name differs from it in an attribute or lies apart along a dimension. It covers patches with one coordinate per dimension (besides those of several dimensions) whose names have no underscore, and attributes without sequences or '['. Two refuted claims show that the condition on earlier patches is needed: the row of a patch that shares attributes and part of its range with an earlier one loads part of that one; texts in a row are read as patterns. Not modelled: the file's index table, and the missing values pandas fills in for columns that only other rows have.
* **C63 Converting units keeps what the numbers stand for** (partial). UnitsModel.v, exact rationals. C63_convert, C63_back, C63_via, C63_refuses for numbers; C63_history for any sequence of calls with the cache; C63_coord, C63_coord_refuses for coordinates; C63_patch, C63_patch_refuses, C63_unknown, C63_simplify, C63_set_units for patches. Four refuted claims: cached factors used for another unit, simplify_units of data in degC, set_units dropping the data units, coordinates without labels. Trusted: pint, as described in the model. Not modelled: float64 rounding, parsing of unit strings, the class of the converted coordinate (C10).
* **C64 Limits of filters given as quantities** (partial). UnitsModel.v: get_filter_units and get_inverted_quant complete, on exact rationals. C64_plain, C64_frequencies (one or two limits), C64_periods (two), C64_one_period (what one does), C64_refuses. One refuted claim: a single period limits the other side. Units with an offset are left out (pint refuses to invert them).
* **C65 Tapering changes only the ends it names** (partial). TaperModel.v on top of the coordinate model. C65_taper, C65_overlap, C65_too_long, C65_unknown. Left out: percentages and fractions of an integer range that are no integers. Two refuted claims: a taper of length zero changes nothing; the ends can be tapered whatever the order of the labels (along descending labels a taper of one end is refused).
* **C66 Tapering to ranges** (partial). TaperModel.v, exact rationals. C66_range, C66_invert, C66_invert_one, C66_refused. Evenly sampled ascending dimensions only (other curves are interpolated). Three refuted claims: a missing third or fourth value stands for the end of the dimension (the last sample is set to zero); inverting keeps what is outside (not if the second and third value name the same sample); no sample grows (overlapping ranges add up).
* **C67 A scan reports every file once** (partial). IoModel.v: _iter_filesystem as a resumable generator, the loop of scan as its consumer. C67_scan, C67_error, C67_listing, C67_found, C67_each_once. Five refuted claims: an iterator of sources is scanned (it is used up by counting); directory formats are found below '.' and '..' (no directory is offered there); a missing path is skipped (it ends the scan); a directory format given for files reads them all (the next one is lost); files and directories treat the time stamp alike (>= and >). Not modelled: progress bars, races with the file system, symbolic links, permissions.
* **C68 Files are closed** (partial). IoModel.v: programs as trees of requests. C68_closed, C68_same, C68_open, C68_cast. Five refuted claims: the caller's stream stays usable (it is closed with the manager); a manager is not used after its block (it returns the closed handle); a text writer takes text streams (only binary ones); a direct call that fails closes its handle; reading makes nothing (it makes the parent directories of a missing path).
* **C69 Dropping, filling and replacing samples** (partial). NaModel.v on top of the patch model and, for condition patches, the aligning of BinOpModel.v. C69_dropna, C69_none_left, C69_again, C69_unknown, C69_fillna, C69_full, C69_where_array, C69_where_patch. Replacements for where are scalars in the theorems. Three refuted claims: the other coordinates of the dimension are kept (they are dropped with the first label); a wrong how is refused (it means all); a condition array that fits the patch works with a patch of replacements (not if that has fewer labels).
* **C70 Reading Febus zones** (partial). C70_febus, C70_file (no time filter). C70_time_labels proves exactly what a time filter does: labels one step late (an extra step is added to the block starts). C70_both: with a distance filter as well no patch is ever returned, since the reshape uses the full channel count. Both are recorded as refuted claims: C70_time_refuted, C70_both_refuted.
* **C71 Decoding TDMS samples** (partial). C71_interleaved, C71_chunks_partial, C71_order (exactly where every sample goes). Refuted: samples by chunks come back in order (C71_order_refuted), complete chunks only can be read (C71_complete_refuted: always a TypeError), a second segment is appended in time (C71_segments_refuted: it is put next to the first).
* **C72 Reading Terra15 files** (partial). C72_terra15. Without snapping the times of an incomplete block are not sorted, and a time filter then fails with an AttributeError (C72_unsnapped_refuted).
* **C73 Reading and writing SEGY files** (partial). C73_read, C73_round_trip. Refuted: an empty channel selection gives no patch (C73_no_channel_refuted: always a ValueError); times survive writing and reading (C73_start_refuted: fractions of a second are lost).
* **C74 Decoding Sintela packets** (partial). C74_packets, C74_whole. Labels and headers are not modelled.
* **C75 Muting a range** (proved). C75_range, C75_refused. Data is of any type with any multiplication by a number.
* **C76 Muting between two lines** (partial). C76_wedge_partial, C76_strip_partial (lines exactly parallel; those within 1e-9 of it are left out), C76_refused. C76_lost proves that crossing lines with a product of directions of at most 1e-8 mute nothing; so drawing the same wedge shorter loses it (C76_short_refuted). Numbers are read with the labels of the first two dimensions of the patch whatever dimensions are named; the theorems state it, C76_order_refuted shows the effect.
* **C77 Muting between two slopes** (partial). C77_slopes_partial (ranges up to 1e9; drawn segments nearly parallel or with a product above 1e-8), C77_refused. Refuted: flipping a dimension moves the origin to its other end, as the docstring says (C77_flip_refuted: nothing is muted or the mute is refused); the dimensions may be named in the other order (C77_order_refuted).
* **C78 Derivatives** (proved). C78_derivative, C78_step, C78_parabola, C78_refused. Integer data loses its fraction with a step and only then (C78_step says so, C78_integers_refuted shows it). Exact arithmetic instead of floats; orders above 2 need another package and are not modelled.
* **C79 Integrals** (partial). C79_running_partial (labels even, or along the last dimension, or two of them), C79_definite, C79_refused. Uneven labels along another dimension give ValueError (C79_uneven_refused), unless one less than their number is the length of the last dimension: then the widths are taken along the wrong dimension (C79_uneven_refuted). Also refuted: the definite integral goes from the smallest to the largest label (C79_sign_refuted, descending labels); the running integral ends with the definite one (C79_integers_refuted, integer data is cut). No dimension may be the beginning of a new name.
* **C80 Strain rates** (partial). C80_rate, C80_edgeless_partial (integer labels whose middles are integers), C80_agree, C80_refused, C80_short. Order 2; units and warnings are left out.
* **C81 Moving windows** (proved). `C81_scipy` and `C81_bottleneck` give every element of the result as the reduction of a list of elements that is described by `continued` or by plain positions; medians and extremes are given by rank in a sorted permutation, means by multiplication, standard deviations by the sum of squares. `C81_agree` is derived from equality of the two windows.
* **C82 Outlier removal** (proved). `despiked` states the comparison without division; `box_medians` gives the box as an array of its own, read from the data by reflected positions, and the median by rank. The approximate variant rests on the window theorems of C81 for each dimension in turn. For integers the conversion to float32 and back is shown to be exact to 2^24.
* **C83 Median, Sobel, Gaussian and Savitzky-Golay filters** (proved). `weighted` gives every element as the sum of weights times elements of the continued line, `weighted_in_turn` chains them. `C83_savgol` says what the loop in savgol_filter does, which filters the data of the patch each time; `C83_savgol_refuted` that this is not what its documentation says.
* **C84 Detrending** (proved). `best` compares with every other line there is; the model computes slope and intercept in closed form and the proof shows no other line leaves less. `C84_trends_vanish` and `C84_again` follow from uniqueness.
* **C85 Kurtosis** (proved). The recursion is a loop over four running values; `fading` states the outcome as a weighted sum of everything that came before, without recursion. `C85_at_least_one` is the inequality of Pearson.
* **C86 Slant stacks** (partial). Proved for evenly spaced channels, for unevenly spaced ones only for positive slownesses: the rows of negative slownesses are wrong there (refuted), and `C86_uneven_partial` says what they are instead; they are right when the distances are the same from both ends (`C86_mirrored`). Refuted as well: the last sample of every trace counts as nothing, data with time first is taken for its transpose, descending distances read samples from the wrong end.
* **C87 Cells of coordinates with gaps** (proved). `cells` reads cells off the edges, so the number and order of edges are part of the statement; `middle_interval` says what the median is by ranks. Refuted: with factors below one cells overlap.
* **C88 Limits of filters** (proved). The filters are not modelled, only the request. Refuted: zero and the highest frequency, which the message calls possible, raise ValueError in scipy; (..., ...) fails an assertion instead of raising FilterValueError; falling coordinates refuse every positive limit; negative notch frequencies pass the check.
* **C89 Slopes of slope_filter** (partial). Proved when the last two limits differ: otherwise elements of just that slope are NaN (refuted). Lists and tuples out of order pass the check (refuted). Units of limits and the transform itself are not modelled; the sine is any function that rises from 0 to 1.
* **C90 What waterfall draws where** (partial). Refuted: evenly spaced labels that fall are drawn in the wrong order, since the image always runs from the smallest label up. matplotlib is trusted to draw an image and a mesh where it is told to.
* **C91 Color limits of waterfall** (proved). Quartiles are stated by ranks. Refuted: a scale of 1.0 is not the whole range of the data as the docstring says (it is centred at the mean); a negative relative number gives reversed limits; data that is mostly the same gives equal limits.
* **C92 Centred and normalized data** (proved). The square root is a parameter which needs to be right for the number it is taken of only. Refuted: that finite data stays finite under standardize (constant lines become NaN).
* **C93 Equal patches** (proved). Refuted: a patch equals itself (NaN in the data), equality is symmetric, equality is transitive (tolerances for coordinates), equal patches have coordinates of the same units (metres equal feet).
* **C94 Interpolated patches** (proved). Linear interpolation only. The new coordinate is represented as get_coord builds it.
* **C95 Functions mapped over spools** (proved). Refuted: that a client makes no difference for chunked spools, since slices of entries that share a source repeat samples; that the size is the number of processors by default, as the docstring says.
* **C96 Patches as dataframes** (proved). Refuted: other coordinates survive. Labels of the new patch are as get_coord makes them (C10). Attributes given as PatchAttrs for a dataframe without names are not modelled: their dims is one text of which dataframe_to_patch takes the first two characters.
* **C97 Method namespaces** (proved). Refuted: a namespace a user has defined stays (the entry point of the same name replaces it on the first access), and public functions taken from another namespace class can be called (they are wrapped twice).
* **C98 Arguments that name dimensions** (proved). Refuted: the answer has one entry where one dimension is allowed (a name given twice is there twice), and a dimension called dim can be given a value.
* **C99 Deep equality** (proved). Objects whose == or equals is not symmetric: only that reported differences exist. Refuted: arrays of different lengths differ and equality is transitive (== broadcasts).
* **C100 Ratio of short-term to long-term averages** (proved). Exact arithmetic. Refuted: a longer long-term window has more samples (lengths are rounded up to samples).
* **C101 XML read into dictionaries** (proved). Attributes are ignored by the function and not modelled. Refuted: nothing is lost, and what is under a tag is always a list.
* **C102 Attributes of operators on two patches** (proved). Without a coordinate manager, as operators call it. Attribute values are those of AttrsModel.v. Refuted: the history is ignored (it decides whether missing values count as equal).
* **C103 Attributes read by name** (proved). Arrays have one dimension; addresses are keys of the file, without links or relative paths; the empty address is an address like any other. Refuted: bytes are always read as text (not in arrays of one element); attributes with more than one value can be extracted (TypeError from the lookup of replacements).
* **C104 Arguments of whiten** (proved). The checks of whiten itself; the transforms, the taper and the sample count of the smoothing can refuse arguments too and are not modelled here. Largest frequency and step are arguments. Refuted: water levels from 0 to 1 are accepted (integers are not) and others refused (not without smoothing); names always come back.
* **C105 Smoothing of masks** (proved). The filter itself is not modelled. Refuted: widths are not negative (numbers of samples are not checked).
* **C106 Dimensions and coordinates of short-time Fourier transforms** (proved). Data, attributes, units and lengths are not modelled. Refuted: every stft has an inverse (latitude along distance prevents it); istft trims along the restored dimension (not after a transposition that puts time before frequency).
* **C107 Conversions to and from ObsPy streams** (proved). Times and steps are exact; the stats ObsPy adds itself are left out; PatchConversionError is modelled as PatchError, a base of it. Refuted: all traces have the times of the patch (starts and steps are not compared, so that traces of different times get those of the last); the check refuses what cannot be converted (only patches with exactly two dimensions); attributes come back as they were (one named after the dimension is added, and calib is lost).
* **C108 Recognising Febus files and listing their parts** (proved). Instruments are given in the order of their names; sources in any order, as a set is gone through. Refuted: the order of sources is irrelevant (with different versions the last one counts, whichever it is); files with the fingerprint are recognised (not with an empty version, or one starting with a dot); such files have a source (instruments without any are enough).

## Findings

Each is a theorem about the faithful model (`_refuted`), so each is a concrete input on which the code does not do what the property says.

* `C59_int_label_refuted`: REFUTED: dim_reduce="min" gives the dimension its least label. The reduced label of an integer dimension reaches get_coord as a bare integer and is taken for a length: the call raises CoordDataError, or, when the label happens to be one, returns a dimension without a label.
* `C60_ufunc_names_refuted`: REFUTED: ufunc.reduce takes several dimensions. swap_kwargs_dim_to_axis makes a list of axes of them, and numpy takes an integer or a tuple: the call always raises TypeError.
* `C60_transpose_refuted`: REFUTED: every sample keeps its labels. The outcome of np.transpose on a patch with as many labels along either dimension has the shape of the patch, so it is returned with the dimensions of the patch: the sample at x=2, y=10 is now the one that was at x=0, y=9.
* `C60_keepdims_refuted`: REFUTED: np.sum(patch, axis=0, keepdims=True) gives what it gives without keepdims. The axis kept by numpy is put back a second time and the outcome is refused.
* `C56_update_dims_refuted`: update(time_max=...) on attributes with two dimensions makes time the only one: the dims found among the keywords replace those of the attributes (utils/attrs.py 302-305 with core/attrs.py 244-246).
* `C56_prefix_refuted`: An extra attribute such as timeout_max is taken for information about the dimension whose name it begins with: here it replaces time's maximum. The pattern only asks for the name, anything, and _max (utils/misc.py 440-461); the attribute itself stays.
* `C56_two_words_refuted`: update(gauge_length=30, gauge_length_units="m") does not set gauge_length, and makes "gauge" the only dimension: gauge_length_units counts as the field "length" of a coordinate "gauge" (utils/attrs.py 246-251, 256-266, 285-287).
* `C56_flat_others_refuted`: The flat form loses coordinates that are no dimensions: read back, their fields are plain attributes (core/attrs.py 288-321 with utils/attrs.py 253-266).
* `C56_flat_underscore_refuted`: The flat form loses a dimension whose name has an underscore: no field is found under its first word (utils/attrs.py 258-259).
* `C56_rebuild_data_refuted`: A coordinate named "data" takes the data_units attribute away when the attributes are rebuilt from their dump (utils/attrs.py 285-287).
* `C56_swap_refuted`: Swapping the names of two dimensions loses a coordinate and keeps the dims: the renames are applied one after the other (core/attrs.py 228-230).
* `C51_keep_first_default_refuted`: keep_first does not keep the first value when that is the field's default: dumping leaves defaults out, so a later set's value is taken (utils/attrs.py 117, 164). The first tag is "", the merged one "b".
* `C51_keep_first_nothing_refuted`: keep_first along a coordinate that no set has returns empty attributes, where the other modes raise: the ChainMap of no dicts is an empty dict (utils/attrs.py 163-164, 186).
* `C51_drop_coords_refuted`: drop with one conflicting coordinate loses all of them, the merged one too: coords is compared and dropped as a single value (utils/attrs.py 153-160).
* `C51_drop_dims_refuted`: drop with conflicting dims makes every coordinate a dimension, the merged one last (utils/attrs.py 136-138 with core/attrs.py 44-58).
* `C51_drop_null_refuted`: A missing value (NaN) that all sets share is kept when everything agrees, and dropped when some other attribute conflicts (utils/attrs.py 153-173).
* `C51_raise_ignored_refuted`: raise does not look at sets without the coordinate: their conflicting values are dropped silently (utils/attrs.py 128-129).
* `C39_transposed_refuted`: A patch combined with its own transpose: the managers compare equal because dimensions are compared as sets, so nothing is transposed, and the assertion that the dimensions are in the same order fails.
* `C39_associated_refuted`: Aligning reorders a dimension and the data but not a coordinate along it: the first sample at time 1 had [q] = 10, in the sum it has [q] = 30.
* `C39_nearby_refuted`: Labels that np.isclose forgives count as equal: these two patches have no label in common, and their elements are added all the same.
* `C39_extra_coords_refuted`: A coordinate that is not a dimension and differs between the operands makes the call fail with a bare AssertionError; a coordinate of the second operand only is lost.
* `C20_last_sample_refuted`: keep_partial does not keep a last chunk of one sample.
* `C20_fractional_length_refuted`: A chunk length that is not a whole number of steps drops samples inside.
* `C21_other_key_hides_gap_refuted`: Gaps are looked for across all keys at once, so a second station without a gap hides the gap of the first: its two segments share a group.
* `C21_negative_steps_refuted`: Steps of descending segments are never told apart.
* `C22_nested_refuted`: Nested rows: the row after a nested one is compared with the nested row only, so its overlap with the enclosing row stays.
* `C23_nested_refuted`: A segment nested in another stops the whole spool from merging.
* `C23_repeated_refuted`: A repeated segment followed by a contiguous one gives an instruction with reversed limits, which loads a sample twice.
* `C23_gap_boundary_refuted`: A chunk that starts inside a gap (here merged by a tolerance of 20 samples) also gets an instruction with reversed limits.
* `C32_distinct_dims_refuted`: Dimension names need not stay distinct: renaming onto another dimension of the same length, or setting a dimension to another one, is accepted.
* `C32_limit_like_name_refuted`: A coordinate whose name looks like a limit keyword makes every select fail.
* `C33_reversed_slice_refuted`: A reversed sample slice on a dimension whose reversal looks the same (here a partial coordinate) returns the patch as it was.
* `C33_private_coordinate_refuted`: A select on a private coordinate without dimensions changes nothing.
* `C34_sort_after_sort_refuted`: After sorting by a second coordinate a monotone dimension coordinate still claims to be sorted, so sorting by it does nothing.
* `C36_shared_coordinate_refuted`: Two flipped dimensions that share a two-dimensional coordinate: it is reversed along the second only, while the data is reversed along both.
* `C37_swap_refuted`: Renames are applied one after another: two dimensions cannot be swapped.
* `C37_rename_onto_existing_refuted`: Renaming onto an existing coordinate silently drops that coordinate.
* `C37_squeeze_all_refuted`: A patch with nothing but length-one dimensions cannot be squeezed.
* `C50_associated_coordinates_refuted`: Coordinates that share the dimension are not decimated but dropped, and with factor -1 they are neither dropped nor reversed while the data is.
* `C54_associated_coordinates_refuted`: Rolling with the coordinate leaves other coordinates of the dimension behind.
* `C57_negative_refuted`: REFUTED: every patch that fits is in the outcome, or the call is refused. With a negative length, concatenate(time=-1), range is empty and an empty list comes back: all patches are lost without a warning.
* `C58_transposed_refuted`: REFUTED: samples are added only to samples with the same labels. check_dims warns about different dimensions but returns True all the same, so with the default check_behavior="warn" a patch with its axes in another order is added position by position: here the sample at x=2, y=10 of the sum is not the sum of the samples with these labels.
* `C58_fewer_dims_refuted`: REFUTED: a patch with fewer dimensions is left out. For the same reason it is added to every row of the first patch.
* `C04_mono_select_refuted`: The missing part: when the selected values are nearly, but not exactly, even the result is snapped to an even grid, so its values are not the selected ones.
* `C05_array_select_refuted`: * C05: range select on an arbitrary array
* `C06_select_values_refuted`: The missing part: picking from an evenly sampled coordinate rebuilds it.
* `C08_order_values_refuted`: * C08: order
* `C09_sort_refuted`: Evenly sampled coordinates sort exactly.
* `C10_get_coord_refuted`
* `C11_flags_truthful_refuted`: The missing part: ordering a monotonic array keeps its class.
* `C11_select_after_order_refuted`: A consequence: a later range select returns the wrong values.
* `C12_zero_step_length_refuted`: A zero step is accepted and leaves a single sample, whatever the length was: [coord.update_limits(step=0)] changes the length without an error.
* `C12_min_descending_refuted`: Refuted parts: on a descending coordinate the new minimum becomes the maximum; with both limits the length can change and the requested maximum is not the maximum.
* `C12_both_length_refuted`: Refuted parts: on a descending coordinate the new minimum becomes the maximum; with both limits the length can change and the requested maximum is not the maximum.
* `C12_both_max_refuted`
* `C13_change_length_refuted`: Refuted for integer coordinates: growing a coordinate of 200 000 samples by one is swallowed as a rounding difference and fails an assertion.
* `C15_align_close_refuted`: Refuted for integer arrays that differ by less than 1e-5 of their values: they count as equal and come back unaligned.
* `C16_next_index_mono_refuted`: Refuted at the first value of a monotonic array: index 1 instead of 0.
* `C44_stale_attribute_refuted`: A patch saved under a name that is taken does not replace what is there: an attribute of the earlier patch that it lacks shows up in it.
* `C44_stale_coordinate_refuted`: ... and a coordinate of the earlier patch that no longer fits makes the file unreadable, although both patches can be stored.
* `C44_same_second_refuted`: Two patches in one call whose times differ by less than a second get one name; only the second is kept.
* `C44_separator_refuted`: Nor are names told apart when the separator occurs in the texts.
* `C44_name_attribute_refuted`: An attribute called name on one patch takes the name from all the others, which are all called nan.
* `C44_path_refuted`: Rows of a spool over files carry the path: all patches of one file get the name of that file, and only the last is kept.
* `C44_lone_coordinate_refuted`: A coordinate that belongs to no dimension is written as belonging to one without a name: the file cannot be read.
* `C44_underscore_refuted`: A coordinate whose name has an underscore loses its units, and its step when it has one sample.
* `C44_marker_refuted`: An attribute with the file's own marker in its name comes back under another.
* `C48_one_complex_sample_refuted`: One complex sample: the only frequency is zero, so the inverse takes the transform for a real one and drops the imaginary part.
* `C48_two_single_samples_refuted`: Two dimensions of one sample each: the inverse sees two real transforms.
* `C48_descending_refuted`: A descending coordinate: the frequencies of a real transform descend from zero, so that the inverse does not recognise it, while the complex transform of two samples is taken for a real one.
* `C48_padding_mixed_refuted`: Transforming one dimension without and another with padding: the first can no longer be transformed back on its own.
* `C48_padding_kept_refuted`: Going back in two steps, or transforming another dimension without padding afterwards: the padding stays.
* `C48_lag_single_refuted`: correlate_shift of a single sample fails.
* `C48_lag_long_refuted`: An odd number of samples from 200001 on along a dimension that is not a time: the missing sample is within the relative tolerance of change_length, which fails its assertion.
* `C25_none_matches_nothing_refuted`: An unset value for an existing column is not "no condition": nothing matches.
* `C25_ignored_keyword_fails_refuted`: Asking to ignore unsuitable keywords does not cover <name>_min.
* `C31_repeated_name_refuted`: A folder below the directory with the directory's own path as a part of its path loses that part: "/data/site/data/f.h5" is stored as "sitef.h5".
* `C38_type_refuted`: A function with a data_type that gives back its argument: the result is a new patch with another data_type and no entry says so (utils/patch.py 282-293).
* `C38_text_refuted`: Earlier entries are not left alone when the history is one string, which the attributes allow (core/attrs.py 121): it is taken apart into characters (utils/patch.py 290).
* `C38_nested_refuted`: One call leaves more than one entry when the function calls another patch function by its decorated name: roll with update_coord calls update_coords (proc/basic.py 707); so do whiten (proc/whiten.py 143, 162) and resample (proc/resample.py 248).
* `C38_distinct_refuted`: Two calls with different arguments leave the same entry.
* `C38_missing_attr_refuted`: A required attribute with a value that the patch does not have at all is no PatchAttributeError, which the documentation promises (utils/patch.py 171).
* `C27_covering_file_missed_refuted`: A file covering seconds 0..10, asked for seconds 1..5, is not found.
* `C27_epoch_bound_refuted`: A bound of exactly the epoch is taken for no bound.
* `C28_cached_gains_row_refuted`: The same query gives different rows with and without an earlier query.
* `C28_cached_loses_row_refuted`: The same query gives different rows with and without an earlier query.
* `C28_options_ignored_refuted`: Options passed to read_hdf are ignored when the cache answers.
* `C28_foreign_update_refuted`: Rows appended by another process stay invisible to a cached query.
* `C29_coarse_mtime_refuted`: Modification times 4 ms coarse (a kernel tick), a file written half a millisecond after an update began: no later update ever sees it.
* `C29_partial_update_refuted`: update(paths=...) moves the time stamp although other files were not scanned: they are lost to every later update().
* `C30_listed_twice_refuted`: Two updates in a row, the first right after the file was written: the file is listed twice.
* `C30_stale_row_refuted`: A rewritten file keeps its old row, a removed file too.
* `C61_empty_refuted`: REFUTED: reading with nothing but a question about attributes does not give all the patches with those attributes: one without samples, as an empty selection leaves, is read by a plain read and by one with None for the keyword, but left out as soon as any keyword counts, although the keyword fits and selects nothing (io/dasdae/core.py 131-133).
* `C61_ends_refuted`: REFUTED: the column names of a file's contents are no keywords for reading it: the start of a coordinate, as time_min in get_contents and in the rows that spools load from, is a KeyError, since the filter looks for the column time_min in a table with the attributes only (io/dasdae/utils.py 160-177, utils/pd.py 150-240).
* `C62_overlap_refuted`: Loading from a row of the contents does not give the patch the row describes when an earlier patch of the file shares its attributes and part of its range: the spool keeps no name of the patch in its row, reads the file again with the row as keywords and takes the first patch (clients/filespool.py 64-74, core/spool.py 552-573). Here the times are 100, 110 and 110, 120: the row of the second patch loads the last sample of the first.
* `C62_pattern_refuted`: Nor when its own attributes are patterns that match those of an earlier patch: stations "A1" and "A?" (utils/pd.py 150-240 reads texts as patterns).
* `C53_new_any_key_refuted`: The docstring: a drop-in replacement for dictionaries. new(x=...) of FrozenDict({1: 2}) raises instead of returning an updated copy.
* `C52_associated_refuted`: ... so a quality flag along the dimension comes out as a copy of the dimension: [e] is 0, 1, 2, 3, 4 in one manager and 0, 1 in the other, and 0, 2, .., 12 after merging ...
* `C52_last_axis_refuted`: ... and managers with a two-dimensional coordinate that has the merged dimension last do not merge at all.
* `C55_descending_refuted`: Descending patches: merging labels them in ascending order but leaves the data as they are, because the indexer that snapping returns is dropped. The first sample (data 0) had label 15 and comes out with label 0.
* `C55_gap_refuted`: A gap that the chunk tolerance of one and a half steps lets pass is spread over all labels by the snapping: 0, 10, 20, 35, 45, 55 come out as 0, 11, .., 55.
* `C46_shift_independent_refuted`: Full mode, times: the shift of a trace depends on the other traces. The shift of the second trace is 11 (step 10): alone it is rounded up to 2 samples, but when another trace's shift is longer than the patch it becomes 1.
* `C46_reverse_times_refuted`: Shifts given as times: aligning and reversing does not restore the data. The shift 25 (step 10, three samples) is first truncated to 2, and then, in the longer patch, rounded up to 3.
* `C46_valid_empty_refuted`: Valid mode when no sample is shared by all traces ends in an uncaught ValueError of the length change, not the documented ParameterError.
* `C47_engines_centre_refuted`: Centred windows with a step: the numpy engine's windows are not centred on their labels and differ from the pandas engine's.
* `C47_single_output_refuted`: A one-dimensional patch reduced to one output sample loses its axis: the data no longer has the shape of the coordinates.
* `C47_default_engine_refuted`: With three dimensions of which at most one is longer than one sample, the default engine is the one that refuses more than two dimensions.
* `C49_descending_refuted`: A descending dimension cannot be padded: the new limits are computed from the minimum and maximum as if the coordinate were ascending.
* `C49_negative_length_refuted`: A negative length is not refused: it is taken relative to the end of the coordinate, so that pad(time=-10) on six samples adds four on either side.
* `C43_newest_version_refuted`: Versions are compared as strings: asking for OptoDAS, the reader of version 9 is tried before those of versions 11 and 10, and get_fiberio("OptoDAS") gives version 9, although the docstring promises the newest version first.
* `C43_rsf_extension_refuted`: preferred_extensions of the RSF reader is a string, so the reader is filed under "r", "s" and "f": for a file x.rsf it is not put first, for a file x.r it is.
* `C43_hint_repeats_refuted`: A reader passed as hint is yielded a second time in its ordinary place.
* `C43_late_reader_refuted`: A reader defined after the first request is never tried without naming its format: the prioritized list is cached.
* `C43_shadowed_plugin_refuted`: Defining one's own version of a plugin format first hides the plugin's versions: load_plugins returns early because the format is already known.
* `C43_stale_answer_refuted`: get_fiberio keeps answering with the reader it found first, although a newer version of the format has been defined since.
* `C40_wraps_twice_refuted`: Indices below -len are not refused: they wrap a second time. A fresh MemorySpool answers the same index with IndexError.
* `C40_shared_source_refuted`: Slicing a chunked spool in which two chunks share a source repeats samples.
* `C40_rechunk_refuted`: chunk() looks at the sources, not at the entries: chunking an array selection brings back the patches that were not selected.
* `C41_exact_count_refuted`: split(count=4) of five patches makes three pieces.
* `C42_gap_selection_refuted`: A selection that falls in a gap between merged sources keeps an entry that cannot be loaded.
* `C42_contents_refuted`: Selecting on a coordinate that is not in the table keeps every entry and makes get_contents raise.
* `C42_leftover_refuted`: Such a keyword is not applied to the entries another keyword has trimmed.
* `C42_sort_repeated_refuted`: Sorting after selecting an entry twice raises.
* `C42_suffix_refuted`: <column>_max is accepted by the contents table but not by the instructions.
* `C45_whole_seconds_refuted`: Integers pass through binary64, so the first whole second that goes wrong is 4611686019 (2116-02-20): the time is 512 ns late, for dates and for durations.
* `C45_round_trip_refuted`: Beyond that they do not: five nanoseconds over 48 days is the first to change, and a date of today comes back 21 ns early.
* `C45_wrap_around_refuted`: An integer number of seconds too large for a duration wraps round instead: 585 years become 0.29 s.
* `C45_unit_ignored_refuted`: An array of dates handed to to_timedelta64 is read as the integers behind it, in whatever unit they are: one day in seconds becomes 86400 ns.
* `C45_missing_int_refuted`: A missing time: None becomes NaN, but NaT becomes the smallest integer.
* `C63_history_refuted`: In general they do. 1 degC and 274.15 K are equal as quantities, so the factors kept for one are used for the other (units.py 135-143): after a conversion from units of 274.15 K to K, 20 degC are 5483 K.
* `C63_simplify_refuted`: Not so for data in degC, which are multiplied by the 274.15 K that 1 degC is (units.py 123-132, proc/units.py 140-144): 20 degC become 5483 K.
* `C63_set_units_refuted`: Setting the units of a coordinate is not all it does: the data lose theirs (proc/units.py 23-60, where no data units means None).
* `C63_no_labels_refuted`: Units cannot be set, converted or simplified for a coordinate that has a length only, such as an aggregation leaves: the methods of CoordPartial take keywords only and are called with a position, a TypeError (core/coords.py 1057-1064). Simplifying fails for the whole patch.
* `C64_one_sided_refuted`: So a single limit does not mean what it means next to another one: at least 1 s and at most 10 s lets periods of 5 s pass and none of 20 s; at most 10 s, with no other limit, lets those of 20 s pass and none of 5 s (units.py 350-356; the docstring shows the numbers).
* `C65_zero_refuted`: A taper of length zero changes nothing. At the start it takes the first sample; at the end it is refused, because minus zero counts from the start.
* `C66_none_refuted`: A missing value means the end of the dimension. For the third and fourth value it means the last sample, which is then outside the range: its factor is zero.
* `C66_invert_refuted`: Inverting keeps what is outside the range. If the second and third value ask for the same sample no factor is one, and all samples are made smaller.
* `C66_overlap_refuted`: No sample grows. Where two ranges overlap the factors add up to two.
* `C67_iterator_refuted`: An iterator of sources is used up when the sources are counted: the scan reports nothing.
* `C67_dot_refuted`: Below a path that starts with a dot ("." or "..", or "../data") no directory is offered to the readers, so directory formats are not found.
* `C67_missing_refuted`: One path that does not exist ends the scan of all others.
* `C67_directory_format_refuted`: A directory format given for files: the next source is lost, or the scan fails.
* `C67_timestamp_refuted`: A file changed exactly at the time stamp is reported, a directory of a directory format is not.
* `C68_stream_refuted`: A stream of the caller is closed with the manager: it cannot be read a second time.
* `C68_after_refuted`: After its block a manager still returns the handle, which is closed.
* `C68_text_writer_refuted`: A text stream cannot be given to a text writer, but a binary one can.
* `C68_cast_refuted`: A direct call of a reader's method that fails leaves the handle open.
* `C68_reading_makes_directories_refuted`: Asking for a reader of a path that does not exist makes its parent directories.
* `C69_coordinates_refuted`: Other coordinates of the dimension are lost, although their values at the labels that are left are known.
* `C69_how_refuted`: A misspelled how is not refused but means "all".
* `C69_where_refuted`: A condition array of the shape of the data is not cut to the labels a patch of replacements has.
* `C65_descending_refuted`: The ends of a dimension can be tapered whatever the order of its labels. If they descend, what is at the start of the labels is at the end of the array, and a taper of one end is refused.
* `C70_time_refuted`: A time filter gives the samples of the requested times.
* `C70_both_refuted`: A time and a distance filter together give the samples in both.
* `C71_order_refuted`: Samples stored by chunks come back in order.
* `C71_complete_refuted`: Complete chunks only: never readable.
* `C71_segments_refuted`: A second segment goes next to the first one, not after it; if it has another length reading fails.
* `C72_unsnapped_refuted`: Without snapping, an incomplete last block and a time filter cannot be combined.
* `C73_no_channel_refuted`: Nothing is returned when no channel is requested: an error instead.
* `C73_start_refuted`: Times survive being written and read back.
* `C76_short_refuted`: The region between two lines that cross is muted, however short they are drawn. Directions (1, 1) and (1, 2) mute a sample which the same directions drawn ten thousand times shorter leave.
* `C76_order_refuted`: The order of the keywords does not matter. Numbers are read with the labels of the first two dimensions of the patch (mute.py 251), not with those of the dimensions named.
* `C77_flip_refuted`: The origin is at the start of each dimension, so that the other end can be made the origin by flipping (docstring, mute.py 584-593). On the flipped patch nothing is muted, or the mute is refused.
* `C77_order_refuted`: The dimensions may be given in any order, such as time and distance for a slowness (docstring, mute.py 577-582). The slowness of sample (2, 1) is 1 / 2.
* `C78_integers_refuted`: With a step the derivative of a line is still exact. Integers lose their fraction: the slope one half becomes nothing.
* `C79_uneven_refuted`: Unevenly spaced labels along any dimension weigh each trapezoid with its own width. If there are as many widths as the last dimension has samples, they are silently taken along that one. Here all samples are 1 and the labels are 0, 1 and 11: the second column ends with 20 and not with 11.
* `C79_sign_refuted`: The definite integral goes from the smallest label to the largest (docstring, integrate.py 100-102). Along descending labels it has the other sign.
* `C79_integers_refuted`: The last value of the running integral is the definite integral. Integers lose their fraction in the first only.
* `C81_even_refuted`: For windows without a middle the two engines differ everywhere: one takes an element more before, the other after.
* `C81_ends_refuted`: ... and with an odd number of them near the ends.
* `C82_edge_refuted`: A single large value among small ones is not replaced everywhere: at the first sample it is its own neighbour.
* `C82_integers_refuted`: Larger integers change without being outliers.
* `C83_savgol_refuted`: The documentation of savgol_filter says that it is applied over each selected dimension in turn.
* `C86_last_refuted`: A stack of one trace should be the trace: its last sample is lost.
* `C86_uneven_refuted`: Uneven distances: the rows of the negative slownesses are not those of waves from the last place.
* `C86_order_refuted`: The order of the dimensions should not matter: with time first the data is taken for its transpose.
* `C86_descending_refuted`: Distances that fall: samples before the beginning are taken from the end of the trace.
* `C87_overlap_refuted`: With a factor below one cells overlap although the labels rise.
* `C88_ends_refuted`: The limits the message of the refusal calls possible, zero and the highest frequency, are not: scipy refuses them.
* `C88_dots_refuted`: Dots do not count as a missing limit; with no limit at all an assertion fails.
* `C88_descending_refuted`: Along coordinates that fall, every positive limit is refused.
* `C89_order_refuted`: Lists and tuples out of order are not refused: python compares them at the first place where they differ.
* `C89_steep_refuted`: Without room between the last two slopes, elements of just that slope become NaN.
* `C90_falling_refuted`: Every sample should be drawn where its label is: evenly spaced labels that fall are drawn in the wrong order.
* `C91_whole_refuted`: A scale of 1 should give the whole range of the data (the docstring says so).
* `C91_order_refuted`: The lower limit should be below the upper one: one negative number, or data that is mostly the same.
* `C92_finite_refuted`: Unlike normalize, which leaves lines of zeros alone, standardize makes constant lines NaN.
* `C93_self_refuted`: Patches with NaN are not equal to themselves.
* `C93_symmetric_refuted`: The tolerance for coordinates is taken from the second patch.
* `C93_transitive_refuted`: Nor does equality carry over from one patch to the next.
* `C93_units_refuted`: Metres are equal to feet: the units of coordinates with values are not compared.
* `C95_shared_refuted`: Chunks of 15 of three patches of 10 samples share a source: with a client the function gets repeated samples.
* `C95_default_size_refuted`: The size is not the number of processors by default, as the docstring says.
* `C96_coords_refuted`: The other coordinates are lost.
* `C97_override_refuted`: A namespace of the user is replaced by the entry point of the same name as soon as a patch is asked for it.
* `C97_reused_refuted`: A public function taken from another namespace class is wrapped twice and cannot be called.
* `C98_one_entry_refuted`: Without allow_multiple the result can still have two entries, of the same dimension.
* `C98_dim_refuted`: A dimension called dim (or coord, dims, coords) cannot be given a value.
* `C99_arrays_refuted`: Arrays of different lengths can be equal, and equality is not transitive: the empty array is equal to every array with one element.
* `C100_order_refuted`: A longer long-term window does not have to have more samples: lengths of 15 and 18 with a step of 10 are both two samples, so all ratios are one.
* `C101_lossless_refuted`: Text beside children is lost, and so is how children with different tags follow each other.
* `C101_lists_refuted`: What a reader gets under a tag depends on how many children there are: for one child it is not a list.
* `C102_history_refuted`: The history is not ignored: patches with the same missing value as an attribute, or with different private attributes, can be added if their histories are equal but not otherwise.
* `C103_bytes_refuted`: Bytes are not always read as text: an array with one element is replaced by it afterwards.
* `C103_arrays_refuted`: An attribute with more than one value cannot be extracted, even if nothing is replaced and the file passed the check.
* `C104_name_back_refuted`: It does not for every name.
* `C104_water_refuted`: A water level from zero to one is refused if it is not a float, and any is accepted without smoothing.
* `C105_negative_refuted`: Numbers of samples are not checked: negative ones are passed on.
* `C106_back_refuted`: Not every transform has an inverse: coordinates along other dimensions prevent it.
* `C106_trim_refuted`: After a transposition the wrong axis is trimmed: here that of distance, or one too many.
* `C107_times_refuted`: Times of traces are not compared: traces of different times are put in one patch.
* `C107_check_refuted`: The check does not refuse patches of any other number of dimensions, with or without time.
* `C107_attributes_refuted`: The conversions add an attribute named after the dimension, with the last value.
* `C108_order_refuted`: The order of sources is irrelevant: false, since a set is gone through and the last counts.
* `C108_recognised_refuted`: Files with a fingerprint are recognised: false, a version which is empty or starts with a dot gives the answer for other files.
* `C108_sources_refuted`: A file of this kind has a source: false, instruments without any are enough.

## What is not modelled

Float-valued coordinates and float64 rounding; parsing of unit strings; numeric
content of signal processing (recursive filters, FFT values, spectrograms);
plotting and string rendering; the HDF5 byte layout; thread
scheduling inside executors; pydantic's own validation machinery beyond the
validators of the classes above; int64 overflow. (`TimeModel.v` does model float64
rounding and int64 overflow.)
