# Design: a machine-checked model of gemlog in Rocq (Coq 8.16.1)

## 1. Shape of the development

`rocq/theories/` is organised in four layers.  Nothing in a later layer is used by an earlier one.

| layer | files | content |
|---|---|---|
| model | `Base.v`, `<Area>.v` | executable Gallina transcriptions of the Python/Cython code, one definition per function or loop body, each with a comment citing file and lines in /repo |
| specification | `<Area>Spec.v` | small independent definitions of what the English property talks about (never using the model's helpers) |
| proofs | `<Area>Proofs.v` | lemmas |
| properties | `<Area>Props.v` | the property theorems only (`exact` of a lemma), each followed by a concrete `Example` that meets the hypotheses, and `Print Assumptions` |

Conventions

* Bytes are `list Z`; file names are Coq `string`s; counts are integers (`Z`); clock values, times and
  voltages that the code holds in doubles are rationals (`Q`): **floating-point rounding is idealised away**.
  C74-C76 prove what rounding does from the bytes to the resampled stream: nothing in the readers (whole clock values and counts)
  but for the last digits of the times, two microseconds in the times, and nothing in the division into runs.
  NaN is modelled explicitly (`option`) where the code's behaviour depends on it.
* Exceptions are values (`sum`/`option`/an inductive of outcomes); loops are structural recursion, or fuel with an
  explicit out-of-fuel outcome that is proved unreachable.
* Third-party code (polyfit, CubicSpline, regular expressions, the file system, obspy stream operations) is either a
  universally quantified parameter of the definitions and theorems, or modelled by an explicit definition listed as
  part of the trusted base in section 3.  No axioms are declared.
* When the English property is false of the code, the model is kept faithful, the failure is proved (`..._refuted`)
  and the largest true version is proved.

## 2. Plan per property

| id | what is modelled | how it is proved |
|---|---|---|
| C01 | `fgets` chunking of a byte string, the reader loop of parsers.pyx | induction on the chunks; line/chunk correspondence for short lines |
| C02 | same | state after an inert line equals state before; induction over insertions |
| C03 | same | simulation: two-field projection (sample, clock) of the state is untouched by G/M lines |
| C04 | `sscanf` with `%d`, `%lf`; decimal formatting as the specification | print/scan round-trip by induction on digits; independence of parser state |
| C05 | compact branch | modular arithmetic over Q |
| C06 | `_convert_raw_091_110` | simulation between reading original and converted lines, invariant `prev` clock equal |
| C07 C08 C09 | stairstep unwrapping, reference unwrapping | induction over the recording; `x - r*floor(x/r)` arithmetic |
| C10 | D-table construction | induction, telescoping |
| C11 C12 | GPS filter, calendar | boolean equivalence; days-from-civil against a day-by-day calendar |
| C13 | reader selection and exception flow | case analysis with parsers as parameters |
| C14 C15 C16 | `_read_several` fold | induction over the list of files with invariants |
| C17 C18 | decision logic, robust regression with regression as a parameter | well-founded recursion on the number of points; Chebyshev count |
| C19 | `_apply_segments` | induction over segments |
| C20 | `_interp_time` | list induction on breaks; rounding arithmetic |
| C21 C22 C25 | `_merge_gaps`, `convert` loops, `_write_hourlong_mseed` | loop invariant; measure |
| C23 C24 C36 | file name builders | decimal formatting lemmas, pigeonhole |
| C26 C27 | selection and classification logic | case analysis over lists |
| C28 C29 | tables | interval reasoning for all integers |
| C30 | `write_wav` over Q | field arithmetic |
| C31 C32 | `gem_cat`, `AppendFile` | fold invariant; telescoping sums |
| C33 C35 C37 C44 | gem_network tables | list induction |
| C34 | `_remove_outliers` | measure; Chebyshev with the median; for visits elsewhere: the median stays at the place, so nothing at the place is ever removed, and at the fixed point the farthest position bounds the deviation and so itself |
| C38 C39 C40 C41 | xcorr windows, days, inversion, IDs | arithmetic, list induction, 2x2 normal equations |
| C42 | `gemconvert` job construction, interleavings of jobs writing to a file map | commutation of writes to disjoint names, induction over schedules |
| C43 | verify_huddle_test: per-logger checks, group times, temperatures, lags | characterisation of each check, monotonicity, independence of other loggers, group iff statements |
| C45 | `parse_gemfile` on a cut file | induction over lines |
| C46 C47 | drift, joining and time mapping together; `convert` logs | composition of C14-C19; loop invariant |
| C48 | calendar arithmetic | case analysis on the cycles of 400, 100, 4 years; inverse functions |
| C49 | `_find_breaks`, `_assign_times` | list indexing lemmas, loop invariant |
| C50 | `read_gem` as called by `convert`, all stages together | composition of the theorems of the stages |
| C51 | `_slow__read_single_v0_9` beside `_read_single` | simulation of the two loops over the lines |
| C52 | `_read_SN`, `_read_format_version`, `_read_config` on file contents | splitting into lines and cells; loop invariant |
| C53 | `_convert_one_file`, gemconvert_single | composition with the theorems of C17, C19, C20, C50 |
| C54 | merging and splitting, the loop over gaps with the windows it merges and fills | all traces agree with one partial function of time, so merging is their union; invariant of the loop over the gaps done so far |
| C55 | cutting names into day and suffix, unique groups, the pattern of each group, merging with method 1 and 'latest' | names: cutting at the first dot and T is injective, equal numbers of dots exclude proper suffixes; merging: fold invariant "the trace that reaches furthest" |
| C56 | names, lags, coefficients, mean, flag; upsampling; parameters of a day | keys distinct, so the assignments append; telescoping sum around the ring; index arithmetic of the upsampled times |
| C57 | windows, lags and inversion put together | C38, C56 and C40 composed: same item names in every window, so the columns are those the inversion looks for |
| C58 | the readers for 0.8/0.85 and the fallback through pandas | read_csv as a function on text: lines, cells, missing words, column types; induction over the lines; agreement with C51's meaning of lines for the fallback |
| C59 | calls killed at any point and run again | sessions on top of C42's step relation, with torn writes; invariant over sessions that logs are numbered without holes; composed with C44; what a kill leaves of each conversion by cases on where it was |
| C60 | `make_db`, `check_lags`, `plot_lags`, `plot_amp`, `calc_channel_stats` over files as lists of traces | rows by induction over the sorted files; windows by an invariant of the loop; ring sums by telescoping; findings as refutations |
| C61 | `get_gem_response`, `deconvolve_gem_response` over response files as lists of stages | case analysis of the choice of files; induction over the traces; rational complex arithmetic for the sensitivity; findings as refutations |
| C62 | the whole way from recorder to output files: Parser, Process, Drift, ReadSeveral, Segments, Interp, Block and Convert together, against a specification of the recorder | induction over events for the rows; unwrapping recovers the counter; uniqueness of cubics through four points, and C81 where one fix of a file is wrong; then C19, C20, C49 and C50 |
| C63 | `xcorr_all_terminal`, `calculate_direction_terminal`, `xcorr_all`, joining of the tables of days, `get_coordinates` of an inventory, a stream or arrays, with the files as a map from names to contents and a list of moments | induction over the tables for joined columns and their lines; then C39 and C40; case analysis for the moments |
| C64 | `_convert_raw_091_095`, line by line, and the parser of C01 on its output | simulation of the parser on the two files, by induction over the lines; the converted clock is characterised exactly |
| C65 | `convert_single_SN`, `parse_error`, the pool as a transition system (begin, log, end, a worker dies), the ends of the commands | an invariant over all schedules that pairs each begun task with what it has logged; a measure for termination |
| C66 | `convert` as a whole on a folder of bytes: heads (`Header`), choice of files (`Select`), blocks (`Block`), output (`Convert`) | the files of each block are shown to be the recordings of that block, in order; then C62; for other files, the choice of files depends only on names of the logger and the rest only on the files chosen |
| C67 | `gem_cat` on a folder of bytes (listing, serial number, loop), followed by `convert` on the folder it writes | the lines of a merged file write down the events of the group, with the first sample of each appended file rebased; so the output is a card in the sense of C66, and of C70 if there are pauses between the groups |
| C68 | `convert` on a card as in C66, recordings with pauses between and within them | a corollary of C70; each run of samples begins with a whole stretch and lies between two pauses; the first two fixes are trusted and agree, so the search for breaks does not fail |
| C69 | the logs of `convert` on a card as in C68 | the tables of each file have the rows of its notes in order; composed over files (`loop_noted`), blocks and the conversion |
| C70 | `convert` on a card as in C68, with a start time | the blocks of `Pauses` and the conversion of C44 with a start time; some value is after the start because the last stretch covers it |
| C71 | `gem_noise`, `ims_noise` over the reals; spline and integration are parameters with contracts | characterisation of the helper for each type; Riemann integrals for bands |
| C72 | `check_discontinuity` on streams with ids | merging and splitting as in C54, id by id; stretches are the maximal runs |
| C73 | the rows of C69 as the input of C44, the lines of C44 as the input of C35 | no row of a narrow log is an outlier; the mean lies within the bounds; serial numbers of three digits are told apart as integers |
| C74 | `dparse_gemfile`, `dunwrap`, `dprocess`, `dread_single`: the readers with every operation rounded | whole numbers below 2^53 are doubles, hence rounded to themselves; invariant over the lines, the rollovers and the running sum; one rounding error for 8.93 |
| C75 | `dinterp`: `_interp_time` with every operation and constant rounded | times after 2004 are multiples of 2^-22, so steps are exact and 25 ms falls between two of them; the position of sample k is off by less than 1/2000 of an interval |
| C76 | `dapply_segments`: `_apply_segments` with every operation rounded | relative error 2^-52 of a rounding; three sums of numbers below 2^32 give at most 1.5 microseconds |
| C77 | `dread_several`: the loop of `_read_several` with every operation rounded | the unwrapped clock of a file is a function of the whole number it stands for; the rounded start is within 10 ns of a whole number plus 0.93, so comparisons agree; induction over the files |
| C78 | the definitions of C77, C76 and C75 together | spans begin and end at samples, and samples are far apart compared with the rounding, so spans contain the same samples; errors add up |
| C79 | `invert_for_slowness` over the reals with `arctan2` and `sqrt`; windows and lags as in C57 | polar coordinates by cases on the quadrant; the misfit splits into that of the best wave and the distance from it; law of cosines; the rational model embeds |
| C80 | `detrend`, `taper`, `correlate` and `xcorr_max` as `xcorr_function` calls them, then windows and directions as in C79 | sums over shifted windows; a signal of finite length that equals its shifted copy is zero, so no other shift reaches its power; Cauchy-Schwarz; the fitted line is linear in the samples; noise changes each product by less than half the distance between the peak and the other products |
| C81 | `polyfit` as used by `_robust_regress`: least squares over the fixes, an exception if they do not determine the polynomial | orthogonalised columns; a polynomial has no more roots than its degree; the wrong fix takes up a share h of its error, with n h at most 16; discrete Legendre polynomials for equal spacing |
| C82 | `CubicSpline` as used by `_interp_time`: the tridiagonal system for the slopes with the not-a-knot ends, elimination, and the cubic pieces | the rows dominate, so elimination finds the only solution; slopes satisfy the rows exactly if the pieces join smoothly; uniqueness gives exactness on cubics and superposition; composed with C49 and C66 |

## 3. Trusted base

* Coq 8.16.1's kernel (and `vm_compute` where used); every property theorem is followed by `Print Assumptions`.
* The correspondence between the model and the Python source, documented in the comment of each definition.
* The idealisations listed above and, per module, in section 4 (filled in as the model grows).
* `Print Assumptions` answers "Closed under the global context" for every property theorem and every
  `..._refuted` theorem, except those of C71 and C79, `C80_directions` and `C80_directions_noise`: no axiom is used, neither of this development nor of the standard library.
  The theorems of C71 (noise spectra, with square roots, logarithms and integrals) and C79 (angles, which `C80_directions` and `C80_directions_noise` use) are about the real
  numbers of the standard library and rest on its axioms: `ClassicalDedekindReals.sig_forall_dec`,
  `ClassicalDedekindReals.sig_not_dec`, `FunctionalExtensionality.functional_extensionality_dep` and
  `Classical_Prop.classic`.
  (`coqchk` lists the constants of `Coq.ssr.ssrunder.Under_rel`, which the standard library's ssreflect plugin
  declares in a module type; no theorem depends on them.)
* Every theorem about code that calls a third-party function given as an argument (polyfit, CubicSpline, the two
  pandas readers, `re.search`, `obspy.read`, ...) holds for all such functions.  What is instead *described* by a
  definition, and so has to be trusted, is listed as "described" below.

## 4. Module by module

"Left out" is code the theorems say nothing about.  Line numbers are in the comments of the definitions.

| module | code modelled | described, simplified | left out |
|---|---|---|---|
| `Scan`, `Parser` (C01-C05, C45) | parsers.pyx `parse_gemfile` | C library: `fgets` into a buffer of the given size; `sscanf` is an argument (any pair of functions for `%d`, `%lf`), with one concrete decimal scanner (no exponents, no inf/nan) | columns of the array that stay 0 |
| `Unwrap` (C07-C09) | core.py `_process_gemlog_data` 863-872, `_unwrap_millis` | pandas' `diff`/`cumsum` as list functions; NaN is `None` | |
| `Calendar` (C12) | `UTCDateTime(y, m, d, h, m, s)` as called by `_make_gps_time` | obspy: the algorithm of `datetime.toordinal` | leap seconds |
| `Process` (C10, C11, C13) | core.py `_process_gemlog_data`, `_gps_in_bounds`, `_make_gps_time`, `_read_with_cython`, `_read_single` | the pandas readers are arguments with any outcome (modelled in `Pandas`); overflow of int64 is not modelled | |
| `Pandas` (C58) | core.py `_read_0_8_pd`, `_read_with_pandas` | `pd.read_csv` on ASCII text without quotes; which words are missing values and how a number is read are arguments (both instantiated in `C58_conditions_met`); the result on rows with too many cells is an argument with any outcome | |
| `Convert110` (C06) | gemlog_aux.py `_convert_raw_091_110` | Python's `int`/`split` on ASCII text; universal newlines not translated | |
| `Convert095` (C64) | gemlog_aux.py `_convert_raw_091_095` | text files as bytes, as in `Convert110` | CR and undecodable bytes, Python underscores in numbers |
| `Pool` (C65) | gemconvert.py `convert_single_SN`, `parse_error`, the pool and the exit statuses; gem_cat.py `main`; huddle_test.py `main` | log lines as values; the conversion seen by its end (its effects are in `Workers`); processes inherit the log (fork) | time stamps, tracebacks, what is printed, interruption of the parent, a worker dying during submission |
| `Card` (C66) | core.py `convert` composed: folder of named byte strings to output files | the parts of `Header`, `Select`, `Block`, `Convert` | the pandas readers of single files stay parameters; options that only label the output |
| `Merge` (C67) | gem_cat.py `gem_cat` on a folder: listing, serial number | the loop of `GemCat`; a new output folder | an output folder with other files in it; special characters in the extension |
| `Pauses*` (C68, C70) | none: composes `Card` (C66) with runs of samples | as `Card` | as `Card` |
| `Logs*` (C69) | none: composes `Pauses` (C70) with the logs | as `Card` | as `Card` |
| `ReadSeveral` (C14-C16) | core.py `_read_several` | reading one file, drift and serial number are arguments | logging |
| `Reference` (C51) | core.py `_slow__read_single_v0_9` | Python's `float` on text is an argument; NaN and infinity count as exceptions | |
| `Drift` (C17, C18, C46) | core.py `_calculate_drift`, `_detect_step`, `_robust_regress` | polyfit is an argument; standard deviations compared by their squares | warnings |
| `Polyfit` (C81) | `np.polynomial.polynomial.polyfit` as called in core.py `_robust_regress` 1194-1196 | exact arithmetic, so that the rank is exact; orthogonalisation in place of singular values | the tolerance `rcond` below which numpy takes columns for dependent |
| `Spline` (C82) | `scipy.interpolate.CubicSpline` as called in core.py `_interp_time` 1300 and 1309 | exact arithmetic; elimination without pivoting | more than one dimension, other boundary conditions than the default |
| `Segments` (C19, C46) | core.py `_apply_fit`, `_apply_segments`, the zeros of `_make_empty_header` | | |
| `Fields` (C48) | the fields of `UTCDateTime` used by `_reformat_GPS` and for file names | Python's `_ord2ymd` | fractions of a second |
| `Breaks` (C49) | core.py `_find_breaks`, `_reformat_GPS`, the fix added to a block without any (519-525), `_assign_times` | numpy's indexing; times of the header lines and metadata are NaN as `None` | |
| `Block` (C50) | core.py `read_gem` as `convert` calls it: Select, ReadSeveral, Drift, Segments, Breaks, Interp and Specs put together | serial number of digits | station codes, messages |
| `RecordingSpec` (C62) | nothing of the code: the recorder, its clock and the documented lines | events with counter readings; true time as a cubic of the counter | temperature, voltage drop-outs, recorders that stop in a line |
| `Single` (C53) | core.py `_convert_one_file`; gemconvert_single.py `main` | getopt as in `Cli`; the disk is an argument | printing, writing the stream |
| `Patch` (C54) | gemlog_aux.py `_interpolate_stream` | limit a whole number of sampling intervals, integer samples, one station | the spline of scipy (a parameter); obspy's `merge`, `split`, `slice` as in `Stream` |
| `Daily` (C55) | gem_network.py `merge_files_day` | names without glob characters, same id in a group, different directories; obspy's `read` and `merge` from their documentation | making the directory, printing, writing |
| `Interp`, `InterpLimits` (C20) | core.py `_interp_time`, with and without limits | CubicSpline is an argument; int32 not bounded | |
| `Stream` (C21, C22) | core.py `_merge_gaps` | obspy `Trace.__add__` (method 0), `merge`, `split`, `slice`, `trim` for traces of one id on the sampling grid | other ids or sampling rates |
| `Convert` (C22, C25, C47) | core.py `convert` from the first read on, `_write_hourlong_mseed`, `_trunc_UTCDateTime` | `read_gem` on a list of numbers is an argument | encoding of the output files |
| `Select` (C26, C27) | core.py `convert` (choice of files), `_find_nonmissing_files`, control flow of `read_gem` | what pandas finds in the first lines of a file is an attribute of the file; `int()` on ASCII text; glob pattern as a test on names | |
| `Header` (C52) | core.py `_read_SN`, `_read_format_version`, `_read_config` | pandas' missing words and rows with more cells than names are arguments; quotes are ordinary characters; ASCII | |
| `Names` (C23, C24, C36) | core.py `_make_filename`, `_make_filename_converted`; gem_network.py `_fix_file_name_digits` and the names of `rename_files` | `str.format` for fields `{name}` and `{name:0wd}`; `str.replace` | other format specifications |
| `Specs` (C28-C30) | core.py `__AVCC__`, `__gain__`, `get_gem_specs`, `get_bitweight_info`, bit weight of `convert`, `write_wav` | exact arithmetic | bytes of a WAV file |
| `GemCat` (C31, C32) | gem_cat.py `gem_cat`, `AppendFile` | text-mode lines and pandas' treatment of blank lines; input and output folders differ | lines with tabs, quotes or NaN words; command line |
| `Outliers` (C34) | gem_network.py `_remove_outliers` | NaN positions not modelled; standard deviations by their squares | |
| `Stations` (C33, C36, C37) | gem_network.py `_fix_station_info_keys`, `_get_station_info`, `rename_files`, `_unique` | splitting a file into cells is pandas'; whether pandas keeps a cell as text is an argument | rows longer than the header |
| `Inventory` (C35) | gem_network.py `make_gem_inventory` | the response is an argument | writing StationXML |
| `Gps` (C44) | gem_network.py `read_gps`, `summarize_gps`, `summarize_gps_terminal` | what `pd.read_csv` makes of a log is given; standard errors by their squares | writing the csv file |
| `Windows` (C38) | xcorr.py `_validate_inputs`, `apply_function_windows` | `Stream.slice` keeps samples between its limits | filters |
| `Days` (C39) | xcorr.py `loop_through_days` | microseconds; merged data do not overlap; limits on the sampling grid.  obspy makes masked traces of data with gaps, for which `detrend` in the function applied may raise: the day is then skipped like for any exception | |
| `Slowness` (C40) | xcorr.py `invert_for_slowness`, names made by `xcorr_function` | 2x2 inverse; angle and square root are taken in `Bearing` | correlation itself |
| `Xcorr` (C56) | xcorr.py `xcorr_function`, `upsample_stream`, parameters of `xcorr_one_day` | a dictionary is a list of items in order of first assignment; detrending, taper, standard deviation, correlation and its maximum, and the spline are arguments | filter |
| `Correlate` (C80) | what xcorr.py `xcorr_function` 346-359 asks of obspy: linear detrending, tapering of the ends, `correlate`, `xcorr_max` (also as gemlog_aux.py 59 calls it) | exact arithmetic; both records have the same number of samples; the square root and the shape of the taper are arguments | rounding; obspy's choice between direct and FFT correlation |
| `Lags` (C80) | what gemlog_aux.py `check_lags` 54-56 asks of obspy: slices at the nearest samples, correlation of two pieces | whole nanoseconds, one sampling interval; pieces with different numbers of samples are an argument | masked samples |
| `Directions` (C57) | xcorr.py `xcorr_one_day` from the windows on, with `invert_for_slowness` of its table | the stream is given after upsampling, detrending and filtering | writing the table to a file and reading it back |
| `Bearing` (C79) | xcorr.py `invert_for_slowness` over the reals, after the windows of `Directions` | real numbers; `arctan2` by cases with the standard library's `atan`; its value at zeros is a parameter; the 2x2 inverse | rounding |
| `Commands` (C63) | xcorr.py `xcorr_all_terminal`, `calculate_direction_terminal`, `xcorr_all`, `pd.concat` of the tables, `get_coordinates` of an inventory | options as read by argparse; a file is emptied, then written byte by byte; channels of an inventory with distinct codes | printing |
| `StreamPlaces` (C63) | xcorr.py `get_coordinates` of a stream and of arrays | `obspy.signal.array_analysis.get_geometry` after its documentation, `util_geo_km` an argument; a coordinate a trace lacks is an exception | the empty columns of arrays |
| `Ids` (C41) | xcorr.py `_check_input_IDs`, comma-separated options | `re.search` is an argument; the pattern of full identifiers for ASCII text | |
| `Workers` (C42) | the file-system actions of core.py `convert` 224-334 for any number of conversions at once | a folder is made without its parents; writing to one file is one step; paths are compared as text | the raw side of a conversion (see `Convert`) |
| `Again` (C59) | core.py `convert` 224-334 called several times, each call killed at any step or within a write; gem_network.py `read_gps` afterwards | as `Workers`; a torn write leaves a beginning of the contents | files of the operating system that are lost after a power failure |
| `Database` (C60) | gemlog_aux.py `make_db`, `check_lags`, `calc_channel_stats` | signal processing, slicing and correlation are arguments; what `pd.concat` accepts | progress messages, saving the table |
| `PlotLags` (C60) | gemlog_aux.py `plot_lags` | a line of dots is the list of its values; the lags window by window as `check_lags` finds them; a length that does not match is an exception (numpy would stretch a single entry) | colours, legend, showing the figure |
| `PlotAmp` (C60) | gemlog_aux.py `plot_amp` | a line of dots is the list of its points; the legend names the lines in the order drawn; logarithm and quartile are arguments | colours, showing the figure |
| `Noise` (C71) | gemlog_aux.py `gem_noise`, `ims_noise`, `_noise_spectrum_helper` | real numbers with NaN and minus infinity; spline and integration of scipy are arguments; tables are arguments | warnings; a single number as `freq` |
| `Continuity` (C72) | gemlog_aux.py `check_discontinuity` | a printed line is a value; ids sorted as one string | text of the lines |
| `Site` (C73) | gem_network.py `read_gps` of a log of `convert`; `summarize_gps` as input of `make_gem_inventory` | numbers are read back as written | |
| `Double` (C74) | parsers.pyx `parse_gemfile`, core.py `_process_gemlog_data`, `_read_single` in double precision | `%` is C's `fmod` (exact) and one rounded sum; overflow and subnormals do not occur in the range of the theorems | |
| `DoubleInterp` (C75) | core.py `_interp_time` in double precision | `np.round(x, 2)` is rint(100 x)/100; `CubicSpline` is a parameter | |
| `DoubleTimes` (C76) | core.py `_apply_fit`, `_apply_segments` in double precision | `x**2` is `x*x`; `x**3` is a parameter with a bound on its error | |
| `DoubleSeveral` (C77) | core.py `_read_several` in double precision | the clock fit is a parameter, stable under changes of 10 ns | |
| `DoubleWhole` (C78) | composition of `DoubleSeveral`, `DoubleTimes`, `DoubleInterp` | the agreement of the fits is a hypothesis | |
| `Response` (C61) | gem_network.py `get_gem_response`, `deconvolve_gem_response` | response files are lists of stages with gain and units; `remove_response` is an argument; the square of the sensitivity | stages without a gain |
| `Cli` (C42) | gemconvert.py `find_SN`, `unique`, `main` | Python's getopt; rows of the codes file as text | printing, logging, test mode |
| `Huddle` (C43) | huddle_test.py `verify_huddle_test`, `_metadata_status`, `unique` | numpy/pandas `min`, `max`, `diff`, `argmin`, `arange`, `round` on lists of optional rationals; whether positions and waveforms can be read and plots made is an argument; the lags found by `check_lags` are an argument | wording, plots, pdf, statistics |

Not modelled at all: `version.py`, plots of
huddle_test.py, the demo and the documentation.
