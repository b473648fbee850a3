{"id": "C01", "title": "Raw reader emits exactly one row per data line, in order", "statement": "For any raw file content, reading it yields exactly one record for each text line that starts with a waveform (D or a-z), GPS (G) or metadata (M) marker, in file order and with the type of that marker, and no record for anything else.", "quantifier": "every byte sequence whose lines fit the line buffer (at most 254 bytes before the newline, no NUL bytes); a companion theorem covers arbitrary byte sequences in terms of 255-byte chunks", "why_tests_cant": "A test fixes a handful of files; the claim is about every file content including malformed and adversarial ones.", "anchors": ["gemlog/parsers.pyx: parse_gemfile"]}
{"id": "C02", "title": "Lines that are not data are inert", "statement": "Inserting or deleting any number of lines that do not start with a data marker (comments, configuration, serial-number, debugging lines, empty lines) anywhere in a raw file never changes what is read from the file.", "quantifier": "all raw files, all positions, all inert lines", "why_tests_cant": "unbounded set of insertions; parser carries state between lines so locality is not evident from samples", "anchors": ["gemlog/parsers.pyx: parse_gemfile"]}
{"id": "C03", "title": "Waveform samples do not depend on GPS or metadata lines", "statement": "The time stamps and sample values read from a raw file are the same whatever GPS and metadata lines the file contains: removing them all leaves the sequence of waveform records unchanged.", "quantifier": "all raw files", "why_tests_cant": "relational property over all pairs of files", "anchors": ["gemlog/parsers.pyx: parse_gemfile"]}
{"id": "C04", "title": "Complete lines are read back exactly", "statement": "For every sample, GPS fix and metadata record whose fields are in range, writing the record as a raw line in the documented format and reading it yields a record with exactly those field values, regardless of everything that precedes it in the file. (A truncated or malformed line does not have this property: it yields a record filled with values of earlier lines.)", "quantifier": "all field values (integers in C int range, decimal millisecond/coordinate values of any length that fits the line buffer) and all parser histories", "why_tests_cant": "round-trip over unbounded numeric formatting and over all prior parser states", "anchors": ["gemlog/parsers.pyx: parse_gemfile"]}
{"id": "C05", "title": "Compact (format 1.10) sample lines decode to a 10 ms clock modulo 8192", "statement": "Each compact one- or two-letter sample line advances the sample clock by exactly 10 ms plus the coded deviation (letter minus \"m\"), modulo 8192, and codes the sample difference likewise; the resulting clock value always lies in [0, 8192).", "quantifier": "all files, all positions, all letters, any earlier clock value", "why_tests_cant": "must hold for all preceding histories", "anchors": ["gemlog/parsers.pyx: parse_gemfile"]}
{"id": "C06", "title": "Rewriting a 0.91 file in the compact 1.10 format preserves its records", "statement": "For every well-formed 0.91 raw file, converting it to the compact format and reading the result gives the same sequence of records (type, time stamp, values) as reading the original.", "quantifier": "all sequences of well-formed lines with integer sample clock in [0,8192)", "why_tests_cant": "compression round trip over all histories, including the choice between compact and plain coding at every line", "anchors": ["gemlog/gemlog_aux.py: _convert_raw_091_110", "gemlog/parsers.pyx: parse_gemfile"]}
{"id": "C07", "title": "Clock unwrapping only ever adds multiples of the rollover period", "statement": "The unwrapped time of every record is congruent to its recorded value modulo the rollover period of its format (8192 or 65536 ms) up to one offset common to the whole file, that offset being itself chosen so that the first unwrapped value is congruent to the recorded one and lies within half a period of the requested start.", "quantifier": "all non-empty record sequences, all start offsets, both rollover periods", "why_tests_cant": "all inputs, including arbitrarily corrupted clocks", "anchors": ["gemlog/core.py: _process_gemlog_data"]}
{"id": "C08", "title": "A continuous clock is recovered exactly", "statement": "If the true clock never moves by half a rollover period or more between consecutive records and its first value is within half a period of the requested start offset, then the unwrapped times are exactly the true clock values, for recordings of any length.", "quantifier": "all true-clock sequences (any length, any number of rollovers, forward and backward steps)", "why_tests_cant": "induction over unbounded recordings", "anchors": ["gemlog/core.py: _process_gemlog_data"]}
{"id": "C09", "title": "Vectorised and reference unwrapping agree", "statement": "The fast unwrapping and the line-by-line reference reader assign the same relative times to all records of a file (they differ by one constant multiple of the rollover period per file), except when some step is exactly plus half a period, where they disagree.", "quantifier": "all record sequences and offsets", "why_tests_cant": "equivalence of two algorithms over all inputs", "anchors": ["gemlog/core.py: _process_gemlog_data", "gemlog/core.py: _unwrap_millis", "gemlog/core.py: _slow__read_single_v0_9"]}
{"id": "C10", "title": "Sample values are running sums of recorded differences", "statement": "In difference-coded formats the k-th sample returned equals the sum of the first k recorded differences (in file order, GPS and metadata lines ignored), so differencing the output returns the recorded values; in formats 0.8/0.85 the recorded values are returned unchanged.", "quantifier": "all files", "why_tests_cant": "all input lengths and values", "anchors": ["gemlog/core.py: _process_gemlog_data"]}
{"id": "C11", "title": "Only plausible GPS fixes are kept", "statement": "A fix is kept iff its latitude, longitude, lag, year, month, day, hour, minute and second are inside the documented limits, latitude and longitude are non-zero, the second is whole and the date/time exists in the calendar; the fast and the reference filters accept the same fixes.", "quantifier": "all numeric fixes (non-numeric coordinates are treated separately: they pass)", "why_tests_cant": "all tuples of field values", "anchors": ["gemlog/core.py: _gps_in_bounds", "gemlog/core.py: _make_gps_time", "gemlog/core.py: _slow__read_single_v0_9"]}
{"id": "C12", "title": "GPS date fields map to one epoch time, monotonically", "statement": "The epoch time given to a fix is an injective and strictly increasing function of its (year, month, day, hour, minute, second) for all valid dates, one second apart for consecutive seconds, with leap years handled by the Gregorian rule.", "quantifier": "all valid calendar date-times from 1970 on", "why_tests_cant": "every date in an unbounded calendar", "anchors": ["gemlog/core.py: _make_gps_time"]}
{"id": "C13", "title": "Reading one file either returns consistent data or one of the documented errors", "statement": "When GPS is required, a successful read never returns an empty GPS table; sample, GPS and metadata tables contain precisely the records of their type; every sample time carries the fixed 8.93 ms correction and no other table does; a file with no data lines raises EmptyRawFile, one with no GPS line raises CorruptRawFileNoGPS, everything else raises CorruptRawFile.", "quantifier": "all files, all formats, both GPS requirements, any outcome of the fallback reader", "why_tests_cant": "all inputs and all exception paths", "anchors": ["gemlog/core.py: _read_single", "gemlog/core.py: _read_with_cython", "gemlog/core.py: _process_gemlog_data"]}
{"id": "C14", "title": "A rejected file never affects the data of the others except through the clock offset", "statement": "When a list of files is read, each file either contributes its samples, GPS fixes and metadata in order, or is reported by exactly one problem message and contributes nothing; the number of messages equals the number of rejected files, and removing the rejected files from the list leaves the result tables unchanged.", "quantifier": "all lists of files and all patterns of failures", "why_tests_cant": "all subsets of failures at all positions (crash-point style)", "anchors": ["gemlog/core.py: _read_several"]}
{"id": "C15", "title": "Sample times of a set of files never go backwards", "statement": "In the 8192 ms formats, when the logger clock does not run backwards before the first sample of a file (or at most one row precedes that sample), the concatenated sample-clock column returned for the files is non-decreasing and has no step over 1000 ms inside a file, so each sample falls in the time segment of its own file. (In the 65536 ms formats this fails.)", "quantifier": "all lists of files", "why_tests_cant": "invariant over unbounded sequences of files", "anchors": ["gemlog/core.py: _read_several"]}
{"id": "C16", "title": "Consecutive files are stitched onto one clock", "statement": "For files recorded contiguously (every file starts within half a rollover after the previous one ended) the concatenated sample clock equals the true logger clock plus the fixed correction minus one constant for the whole set.", "quantifier": "all contiguous recordings split into any number of files of any length", "why_tests_cant": "end-to-end induction over files", "anchors": ["gemlog/core.py: _read_several", "gemlog/core.py: _read_single", "gemlog/core.py: _process_gemlog_data"]}
{"id": "C17", "title": "Acceptance of the clock fit", "statement": "With GPS required, a file with samples is accepted exactly if it has fixes, the fixes cover more than half of the sample span (fixes running backwards count as covering), the fixes that survive a straight-line outlier removal do not jump by more than 0.25 s relative to that line, and at least 10 fixes survive the cubic outlier removal, all within 0.01 s of the cubic and spanning at least 0.0512 percent of the samples' clock range; otherwise the error tells whether there were no fixes, inadequate ones, a step, or the line fit itself failed. Without GPS required the function never raises: it returns the cubic if it is good and the nominal 1.024 ms tick anchored at the average of the fixes if not.", "quantifier": "all files and fixes, any regression outcome", "why_tests_cant": "decision logic over all inputs and oracle outcomes", "anchors": ["gemlog/core.py: _calculate_drift", "gemlog/core.py: _detect_step"]}
{"id": "C18", "title": "Outlier rejection terminates and keeps a consistent core", "statement": "Outlier-robust regression terminates for every input; the retained points are a sub-sequence of the input in order; on return no retained residual exceeds the absolute limit or z standard deviations; one z-score pass never removes all the points and removes fewer than a fraction 1/z^2 of them.", "quantifier": "all point sets, all fits with the regression as an arbitrary function", "why_tests_cant": "termination and invariants for every input and regression outcome", "anchors": ["gemlog/core.py: _robust_regress"]}
{"id": "C19", "title": "Time mapping assigns each sample by its own file fit", "statement": "A logger-clock value (other than exactly 0, which the zero-filled line of a rejected file may claim) is given the time of the cubic of the last accepted file whose span contains it, and no time if no span contains it; in a set of files read together every sample gets a time, that of its own file (only the last sample of a file may take the fit of the next file, when both spans meet); when the fits are increasing and each takes over no earlier than the previous one left off, times are increasing.", "quantifier": "all headers (any number of segments) and sample times; all lists of files", "why_tests_cant": "all inputs; invariant over unbounded sequences of files", "anchors": ["gemlog/core.py: _apply_segments", "gemlog/core.py: _apply_fit", "gemlog/core.py: _read_several"]}
{"id": "C20", "title": "Resampled output lies on the 0.01 s grid and never inside an interior data gap", "statement": "The samples with a time are divided in runs at every step over 0.025 s or backwards, except right after the first or right before the last sample. Each run of two or more samples that can be interpolated gives one trace of as many samples as it has whole intervals of 0.01 s; a trace starts on the grid and lies inside its run to within half a sample; with increasing times the traces are in time order, no sample falls more than half a sample inside a gap, no run of two samples is left out, and every sample time is the value of the interpolant there unless the run starts exactly half-way between grid times; data already on the grid are unchanged. The call raises exactly if there is no sample with a time or some interpolated run is shorter than 0.01 s. Asked for a part of an increasing record, it divides in runs the samples between the limits (11 ms either side included), and no sample of the result is more than 16 ms before the first limit or 6 ms after the second.", "quantifier": "all sample time sequences and values, all interpolants", "why_tests_cant": "all inputs; geometry of gaps", "anchors": ["gemlog/core.py: _interp_time"]}
{"id": "C21", "title": "Gap merging only fills gaps of at most three samples", "statement": "Merging traces joins two consecutive traces iff the gap between them is at most 0.031 s, keeps every original sample at its time when traces do not overlap, adds only interpolated samples strictly inside such gaps, and afterwards all remaining gaps exceed 0.031 s.", "quantifier": "all ordered lists of non-overlapping grid traces", "why_tests_cant": "all inputs", "anchors": ["gemlog/core.py: _merge_gaps"]}
{"id": "C22", "title": "Conversion writes each sample exactly once, in files that do not straddle a boundary", "statement": "For a file length that is a whole number of samples and an end time well after the data, a conversion returns, and the output files are in time order without overlap (so each time is in one file only), each inside one window of the file length aligned to the epoch. With the default start time the written samples are exactly those of the data from the first whole second on, plus the values that fill gaps of at most three samples; with a start time that is not after the last sample, all samples from it on are written and everything else written fills such a gap.", "quantifier": "all streams, all whole file lengths, all read-block histories (data delivered block by block in time order, with any pattern of unreadable or empty blocks)", "why_tests_cant": "loop invariant over an unbounded interleaving of reads and writes", "anchors": ["gemlog/core.py: convert", "gemlog/core.py: _write_hourlong_mseed", "gemlog/core.py: _trunc_UTCDateTime"]}
{"id": "C23", "title": "GPS and metadata logs are never overwritten", "statement": "The GPS/metadata log name chosen for a conversion never names an existing file and carries the smallest unused index, so repeated conversions keep all earlier logs and the highest index is the most recent (when none is deleted).", "quantifier": "all directory contents (any finite set of names) and any number of conversions", "why_tests_cant": "all file system states, all histories", "anchors": ["gemlog/core.py: _make_filename"]}
{"id": "C24", "title": "Output file names identify the trace start second and channel", "statement": "Converted file names are injective in (start second, network.station.location.channel id, format) for years up to 9999, and sort chronologically for a fixed channel; two traces of one channel starting within the same second get the same name (so one overwrites the other).", "quantifier": "all start times and ids", "why_tests_cant": "injectivity over all inputs", "anchors": ["gemlog/core.py: _make_filename_converted"]}
{"id": "C25", "title": "Every selected raw file is offered to the reader exactly once, in increasing number order", "statement": "The block loop of a conversion reads consecutive, disjoint, increasing blocks of file numbers, and stops after offering every selected file number exactly once when no end time cuts it short; whatever happens (exceptions, end times, interruption) the blocks read so far are the first blocks of that division.", "quantifier": "all sets of file numbers, any block size, any pattern of empty/corrupt blocks", "why_tests_cant": "loop termination and coverage over all histories", "anchors": ["gemlog/core.py: convert"]}
{"id": "C26", "title": "Conversion validates the serial number and selects only matching files", "statement": "convert raises unless SN is a three-character integer literal; the selected files are exactly those whose name ends in .SN or .TXT whose internal serial number equals SN and (if given) whose number is in nums; an empty selection raises MissingRawFiles or CorruptRawFile according to whether some candidate was unreadable.", "quantifier": "all directory contents and arguments", "why_tests_cant": "all inputs", "anchors": ["gemlog/core.py: convert"]}
{"id": "C27", "title": "read_gem error classification", "statement": "read_gem raises MissingRawFiles iff no non-empty file matches, CorruptRawFile if no file has a readable header, an exception for an unknown format, CorruptRawFileInadequateGPS iff no file contributes samples; and otherwise returns data.", "quantifier": "all directories and file outcomes", "why_tests_cant": "all inputs and failures", "anchors": ["gemlog/core.py: read_gem", "gemlog/core.py: _find_nonmissing_files"]}
{"id": "C28", "title": "Every valid serial number has exactly one hardware specification", "statement": "For every integer serial number >= 3 exactly one row of the version table applies; smaller numbers raise an error; bit weights are positive, the voltage step is the documented one to the digits documented, and never grows from one serial number to the next; pressure and voltage steps differ by the factor 45.13 uV/Pa times a seventh of the supply voltage (3.373 V up to number 37, 3.1 V from 38 on).", "quantifier": "all integer serial numbers", "why_tests_cant": "unbounded range of serial numbers", "anchors": ["gemlog/core.py: get_gem_specs"]}
{"id": "C29", "title": "Gain and unit selection scale the bit weight consistently", "statement": "For every serial number and configuration the low-gain bit weight is exactly twice the high-gain one, the selected unit picks the matching entry case-insensitively, and any other gain code or unit raises.", "quantifier": "all serial numbers, gain codes and unit strings", "why_tests_cant": "all inputs", "anchors": ["gemlog/core.py: get_bitweight_info"]}
{"id": "C30", "title": "WAV export is centred and normalised", "statement": "The samples written to WAV have zero mean, lie in [-1, 1], attain absolute value 1 unless the trace is constant (then all are 0), and are an increasing affine image of the input; non-integer sampling rates raise.", "quantifier": "all non-empty traces", "why_tests_cant": "all inputs", "anchors": ["gemlog/core.py: write_wav"]}
{"id": "C31", "title": "gem_cat partitions the raw files at GPS-bearing files", "statement": "The merged files, read in order, contain exactly the input files from the first GPS-bearing one on, in order and without loss or repetition; each merged file starts with a GPS-bearing input; a new merged file begins at an input iff that input and its predecessor both bear GPS; output names are numbered consecutively.", "quantifier": "all sequences of files with any GPS pattern", "why_tests_cant": "all patterns over unbounded lists", "anchors": ["gemlog/gem_cat.py: gem_cat"]}
{"id": "C32", "title": "gem_cat appending preserves sample values", "statement": "After appending a difference-coded file to another, reading the result gives the samples of the first file followed by exactly the samples that reading the second file on its own would give, provided every line is complete and the second file has nothing but header before its first sample line; all lines from the first sample line on are kept unchanged except that the first sample becomes a difference. A file of an earlier format is appended from its first sample line on, unchanged.", "quantifier": "all pairs of sample sequences", "why_tests_cant": "relational over all files", "anchors": ["gemlog/gem_cat.py: AppendFile"]}
{"id": "C33", "title": "Station information lookup", "statement": "A station file with a heading for each of serial number, network, station and location (any order and capitalisation, elevation optional), or without headings and with four or five cells per row none of which pandas converts, is accepted and gives each serial number the codes of the first row with it; anything that is neither is refused. Renaming gives every trace of a file exactly the codes of the row of the serial number in the file name, leaves samples and times unchanged, names the file by the earliest start, and skips files whose serial number has no row.", "quantifier": "all tables, all sets of files, all naming patterns", "why_tests_cant": "all inputs", "anchors": ["gemlog/gem_network.py: _get_station_info", "gemlog/gem_network.py: _fix_station_info_keys", "gemlog/gem_network.py: rename_files"]}
{"id": "C34", "title": "Position outlier removal converges to a self-consistent, non-empty core", "statement": "Iterated outlier removal in GPS position summaries terminates, returns a sub-sequence of the input in order, reached by passes that each drop exactly the rows too far from the median, and is a fixed point (applying it again changes nothing); it never empties a non-empty input, keeps at least 7/8 of the rows in each pass (so up to 16 positions are all kept), and does not depend on the order of the rows. If at least 35 of 36 positions are at one place less than 0.00005 degrees across, these are all kept and every position 0.0021 degrees or more off in latitude or in longitude is removed.", "quantifier": "all coordinate sequences", "why_tests_cant": "termination and invariant for all inputs", "anchors": ["gemlog/gem_network.py: _remove_outliers"]}
{"id": "C35", "title": "The inventory covers every located location exactly once", "statement": "An inventory is made exactly if every network of the station table has a location with known coordinates. Its networks, stations and channels are the distinct codes of the station table in order of first appearance, restricted to those with coordinates; each located combination of codes has exactly one channel, with the serial number of its first table row, the position of its coordinate line, the given response, and times widened by an hour; a station is at the mean of its channels and spans their times, a network spans its stations.", "quantifier": "all station tables and coordinate tables", "why_tests_cant": "all tables", "anchors": ["gemlog/gem_network.py: make_gem_inventory"]}
{"id": "C36", "title": "Renamed files have canonical, zero-padded names", "statement": "Whatever naming pattern of text and fields is given, every date and time field of a renamed file is padded with zeros (year 4, day of year 3, others 2 digits) and other fields and text are kept; completing the pattern is idempotent for every string, so all files of a run are named alike; the default pattern gives the name a conversion with those codes would have given.", "quantifier": "all patterns, all times and codes, any number of files", "why_tests_cant": "all inputs and runs", "anchors": ["gemlog/gem_network.py: _fix_file_name_digits", "gemlog/gem_network.py: rename_files"]}
{"id": "C37", "title": "Duplicate removal keeps first occurrences in order", "statement": "The unique helper returns each distinct element once, in order of first occurrence.", "quantifier": "all lists", "why_tests_cant": "all inputs", "anchors": ["gemlog/gem_network.py: _unique"]}
{"id": "C38", "title": "Sliding-window analysis covers the record", "statement": "Windows are evenly spaced: the first starts at the beginning of the record and the last ends at its end; consecutive windows overlap by at least the requested overlap (up to a millionth of a step) with as few windows as possible, so that with an overlap of a millionth or more no instant is missed before the last microsecond; each window gets exactly the samples in it and each output column has one value per window, with the window middles as times. Records too short raise or give no window. Invalid parameters are refused before any work.", "quantifier": "all record/window lengths and overlaps", "why_tests_cant": "geometry for all parameters", "anchors": ["gemlog/xcorr.py: apply_function_windows"]}
{"id": "C39", "title": "Day-by-day processing covers the requested interval", "statement": "Day-by-day processing of a set of files ends; its windows cover every instant of the part of the requested interval that has data, unless that part starts in the last two seconds of a day, and only day borders and the end of the first window (as long as the time of day at which the interval starts) are in two windows. The function is called once per window with exactly the samples of the wanted channels in it, each file being read once however often it is listed or overlaps; outputs of the windows whose call did not raise are joined in order. It raises exactly if no trace of a wanted channel lies in the interval or a pattern is invalid.", "quantifier": "all intervals", "why_tests_cant": "loop over unbounded intervals", "anchors": ["gemlog/xcorr.py: loop_through_days"]}
{"id": "C40", "title": "Slowness inversion recovers plane waves exactly", "statement": "For any non-collinear array and any window with lags, the inversion gives the plane wave with the smallest sum of squared misfits to the lags between neighbours; lags made by a plane wave give back exactly its slowness vector. It raises exactly if a station of the table is not located or all stations lie on one line, in particular with fewer than three stations.", "quantifier": "all station geometries (3 or more non-collinear stations) and slowness vectors", "why_tests_cant": "algebraic identity over all reals/rationals", "anchors": ["gemlog/xcorr.py: invert_for_slowness"]}
{"id": "C41", "title": "Excluded channels never take part in cross-correlation", "statement": "The channels cross-correlated are exactly those asked for (all in the data; named in full; or found by a pattern) and matched by no exclusion, each once and in order; they do not depend on the order or repetition of the files; invalid patterns raise. Comma-separated options are the texts between the commas.", "quantifier": "all ID lists, patterns and exclusions", "why_tests_cant": "all inputs", "anchors": ["gemlog/xcorr.py: _check_input_IDs"]}
{"id": "C42", "title": "gemconvert converts each wanted serial number once, and parallel workers do not disturb each other", "statement": "Options given in words of their own are understood, the last one counting. The serial numbers converted are, each once and in order, those asked for or those of the file names, without the excluded ones and, with a codes file, only those in it with the codes of their first row. If the files and the serial numbers asked for are named as the loggers name them, none is refused for its serial number. The conversions of such a plan write to separate files: at every moment of every interleaving each has written a beginning of its outputs to the next free log and to its own waveform files; at the end it has written everything, or nothing if it failed to make a folder; all interleavings without such a failure leave the same tree; with the folders there, or with one process, there is no such failure; and every interleaving ends.", "quantifier": "all command lines, folders, codes files, all interleavings of any number of workers, all moments", "why_tests_cant": "all interleavings of workers and all crash points", "anchors": ["gemlog/gemconvert.py: main", "gemlog/gemconvert.py: convert_single_SN", "gemlog/core.py: convert", "gemlog/core.py: _make_filename"]}
{"id": "C43", "title": "Huddle test verdicts", "statement": "The huddle test judges every logger tested, by its own first state-of-health file alone: each of the thirteen checks gets exactly one result, decided by the documented limits (battery, temperature, flat or out-of-range A2/A3, FIFO use, overruns, stack, GPS run time), with one message per result that is not okay, and worse data never get a better result. As a group, a logger is reported as late or early if and only if another one started or stopped more than 20 minutes apart from it, temperatures are reported exactly for the loggers more than 1.5 degrees from the median, and lags exactly if fewer than four of five windows with agreeing waveforms have none. The test finishes if the loggers have eleven minutes of regular data, and cannot with less than ten or with more than a row per second. Limits: a missing first value hides the rest of its column, and loggers started at different times are compared at different times.", "quantifier": "all sets of loggers, all state-of-health files, options and exclusions", "why_tests_cant": "the checks have to hold for every file and every combination of loggers, the results at and around every limit, and independence is about all other loggers", "anchors": ["gemlog/huddle_test.py:verify_huddle_test", "gemlog/huddle_test.py:_metadata_status", "gemlog/huddle_test.py:unique"]}
{"id": "C44", "title": "The GPS summary reads one log per instrument and folder", "statement": "The summary has one line per wanted serial number with logs, in ascending order. Its position is the mean of the fixes of one log per folder (the last in name order, which for fewer than 1001 logs is the newest), without outliers and then without fixes outside the time limits, with standard error, first and last time and count; serial numbers with no remaining fix have no line. Short recordings made elsewhere do not count: if at least 35 of 36 fixes are at one place less than 0.00005 degrees across and the others 0.0021 degrees or more off, the line is that of the fixes at the place, with a position there. It does not fail if the logs are readable. Include and exclude lists are applied exactly; comma-separated texts of the command line are too for serial numbers of one length. Codes and elevation come from the first row of the station table with the serial number.", "quantifier": "all folders, logs, time limits, lists and station tables", "why_tests_cant": "all inputs", "anchors": ["gemlog/gem_network.py: read_gps", "gemlog/gem_network.py: summarize_gps", "gemlog/gem_network.py: summarize_gps_terminal"]}
{"id": "C45", "title": "A raw file cut short reads as a prefix", "statement": "If a raw file is cut after any byte (power loss, card removal), reading it yields a prefix of the rows of the whole file plus at most one row from the cut line; cut at a line boundary, exactly the rows of the remaining lines.", "quantifier": "every file content and every cut position", "why_tests_cant": "every crash point of the recorder", "anchors": ["gemlog/parsers.pyx: parse_gemfile"]}
{"id": "C46", "title": "Sample times agree with GPS", "statement": "With GPS required, every file that contributes data has a set of at least ten of its GPS fixes such that, for each of them whose clock reading lies between the first sample of the file and its last (last excluded), the time mapping gives that reading a time within 0.01 s of the GPS time.", "quantifier": "all lists of files, any regression routine", "why_tests_cant": "end-to-end: regression, acceptance, joining and time mapping together", "anchors": ["gemlog/core.py: _read_several", "gemlog/core.py: _calculate_drift", "gemlog/core.py: _apply_segments"]}
{"id": "C47", "title": "The metadata and GPS logs hold the rows of every readable block once", "statement": "After a conversion of everything the metadata log holds the rows of all blocks with data, in order; the GPS log too, except that rows of the first such block earlier than one second before the start time are left out; the problems returned are those of all blocks.", "quantifier": "all read-block histories", "why_tests_cant": "loop invariant over all histories", "anchors": ["gemlog/core.py: convert"]}
{"id": "C48", "title": "A time and its calendar fields determine each other", "statement": "For every whole second of the years 1 to 9999, the year, month, day, hour, minute, second and day of the year reported for it form a date-time that exists, that date-time is this very second, and the day of the year counts days from the first of January; conversely the fields of the time of an existing date-time are that date-time.", "quantifier": "all seconds of the years 1 to 9999, all date-times", "why_tests_cant": "leap years and centuries: all inputs", "anchors": ["gemlog/core.py: _reformat_GPS", "gemlog/core.py: _make_gps_time", "gemlog/core.py: _make_filename_converted"]}
{"id": "C49", "title": "When a block of files is given times", "statement": "Given GPS fixes in time order, a block is refused as corrupt at the search for breaks exactly if its sample clock jumps (over 25 ms, or back) at both of its first two steps, or its first two trusted fixes disagree with the clock around a jump; a block with a steady clock is never refused there. The waveforms, times and positions returned do not depend on when the conversion is run. The table of positions has one row per fix, in order, with its coordinates, its time, and the year and (fractional) day of the year of that time.", "quantifier": "all tables of fixes, all sample clocks, all dates of conversion", "why_tests_cant": "all inputs; the code indexes arrays by computed positions and removes elements in a loop", "anchors": ["gemlog/core.py: _assign_times", "gemlog/core.py: _find_breaks", "gemlog/core.py: _reformat_GPS"]}
{"id": "C50", "title": "From raw files to output files", "statement": "When a block of raw files is read, the samples come from the readable files of the block in order of their numbers, without those at the beginning that have no format line; each gets the time of the last header line that spans it; every value of the resampled record is the nearest integer to an interpolant of one run of these samples at (or, for runs that begin exactly half-way between two grid times, one interval beside) its time, no value lies outside the runs, and no run is left out. If the sample times of the blocks of a conversion increase throughout, the conversion of all blocks returns and every sample of the output files is such a value or fills a gap of at most three samples, and from the first whole second on nothing is missing.", "quantifier": "all contents of all raw files, all fits and interpolants, all divisions into blocks", "why_tests_cant": "composition of every stage of the program for all inputs", "anchors": ["gemlog/core.py: read_gem", "gemlog/core.py: convert", "gemlog/core.py: _assign_times", "gemlog/core.py: _read_several"]}
{"id": "C51", "title": "The fast reader agrees with the reference reader", "statement": "For every raw file of complete lines of the formats before 1.10 (with or without CR, with any other lines between), with clock values within one rollover, no jump of exactly half a rollover, at least one sample and one metadata line, and sizes within the arrays of the slow reader kept in the source as a reference: reading the file returns tables only if the reference does, with the same sample values, metadata and fixes in the same order, the clock being larger by whole rollovers and 8.93 ms for samples, and fixes with impossible dates removed. The file is refused only if GPS data are required and the reference has no fix with a date that exists.", "quantifier": "all raw files of these formats, all start offsets, both settings of the GPS requirement", "why_tests_cant": "two independent implementations compared on all files", "anchors": ["gemlog/core.py: _slow__read_single_v0_9", "gemlog/core.py: _read_single", "gemlog/core.py: _process_gemlog_data"]}
{"id": "C52", "title": "What the head of a raw file says", "statement": "The format version of a raw file is the text after \"#GemCSV\" in its first non-empty line; its serial number is the one in the first line after the third that is neither empty nor a remark, and comes from nowhere else (unless that line has more than two cells); a configuration line of six numbers among lines 2 to 11 is the configuration used, and without one the default is used; the rest of the file never matters. A file converted to the compact format is not accepted as input, since its version is written \"1.1\".", "quantifier": "all heads, all contents after the head, LF and CRLF line endings", "why_tests_cant": "all files; pandas decides on rows and cells by the text", "anchors": ["gemlog/core.py: _read_SN", "gemlog/core.py: _read_format_version", "gemlog/core.py: _read_config", "gemlog/gemlog_aux.py: _convert_raw_091_110"]}
{"id": "C53", "title": "Converting one file", "statement": "Converting a single file writes one output file or none. It writes only if the file exists, can be read, has a steady clock and a serial number, and its clock could be fitted (with GPS data required: fixes that cover the file, show no step and fit a cubic); the output is named as asked or after the input file; its samples are the resampling, run by run, of the samples of the file at the times the fit gives, and equal those of reading a folder with just this file. Exactly the other existing files are refused. A forced conversion never refuses a readable, steady file with a serial number, and without fixes it counts time from 1970 at 1.024 ms per count. The command takes the last -i and -o and forces exactly with -f.", "quantifier": "all files, all paths, all command lines of separate options", "why_tests_cant": "composition of all reading stages for all inputs", "anchors": ["gemlog/core.py: _convert_one_file", "gemlog/gemconvert_single.py: main"]}
{"id": "C54", "title": "Filling short gaps before plotting keeps every sample and fills exactly the short gaps", "statement": "Preparing a record for the huddle-test plots keeps every sample with its value and time, fills every gap shorter than the limit, leaves every longer gap and both ends of the record as they are, and takes the new values from the spline through the samples within the limit of a short gap. A gap of exactly the limit is filled only beside a single sample cut off by a short gap. It raises exactly when near some short gap nothing is left to fill after the earlier short gaps (two short gaps close together); it never does when short gaps are further apart than the limit.", "quantifier": "all records of traces in time order, all limits, all splines", "why_tests_cant": "The new pieces overlap the record and each other and are merged again; which gap is seen by which window depends on all distances, and the failure needs two gaps at particular distances.", "anchors": ["gemlog/gemlog_aux.py: _interpolate_stream", "gemlog/huddle_test.py: _interpolate_stream call"]}
{"id": "C55", "title": "Joining the files of a day puts every file into the output of its own day and channel", "statement": "Joining files by day writes one file for each day and rest of the names, never two under the same name. Each output contains all traces of the files of that day and rest; with names of the same shape (as conversion writes them) it contains no others, so files are joined exactly by date and serial number. The joined trace runs from the earliest start to the latest end: every sample on which the files agree is kept, gaps are filled with the last value before them, and of two overlapping files the later one counts from its start on. With network codes of different length, files of one network also end up in another network's output; a file within the time of another is dropped.", "quantifier": "all directories of readable files, all lists of input names, all traces", "why_tests_cant": "File names are cut apart and matched again with a pattern, so which files meet depends on all names in the directory together.", "anchors": ["gemlog/gem_network.py: merge_files_day, _unique"]}
{"id": "C56", "title": "Lags, coefficients and consistency of a window", "statement": "For sensors with different names, the cross-correlation of a window reports one RMS per sensor and, for each sensor with the next around the ring, the lag in seconds and the coefficient of exactly that pair, under the item names from which directions are later computed; the mean coefficient is their mean; the lags are called consistent exactly if the shifts around the ring add up to at most the square of the number of sensors, so a wave seen by all sensors with each shift correct to one sample is always consistent. No lag exceeds the largest shift asked for by more than half a sample. Upsampling evaluates the spline only between the first and the last sample, keeps every sample but the last, and divides the interval. The parameters in effect are valid, and each one given is used, except a ratio given without an overlap.", "quantifier": "every list of sensors with distinct names, every preparation, correlation and spline, every ratio, every combination of parameters", "why_tests_cant": "the names, pairings and sums depend on the number and order of the sensors; tests use three or four synthetic sensors", "anchors": ["gemlog/xcorr.py: xcorr_function", "gemlog/xcorr.py: upsample_stream", "gemlog/xcorr.py: xcorr_one_day"]}
{"id": "C57", "title": "From a stream to directions", "statement": "For sensors with different names at positions not on one line, all with data in every window, computing the lags of a day in windows and then the directions succeeds; the windows are evenly spread over the record, and the direction reported for each window is that of the plane wave that fits the lags found by correlating the samples of neighbouring sensors in that very window best. If those lags are exactly those of a plane wave, exactly that wave is reported; if they are so up to e (rounding to samples), the mean square of the residuals is at most e squared.", "quantifier": "every stream of named sensors, window length, overlap, correlation function and sensor positions", "why_tests_cant": "the result for a window depends on names, order and pairing of sensors through three functions and a table; a test fixes one array and a few windows", "anchors": ["gemlog/xcorr.py: xcorr_one_day", "gemlog/xcorr.py: apply_function_windows", "gemlog/xcorr.py: xcorr_function", "gemlog/xcorr.py: invert_for_slowness"]}
{"id": "C58", "title": "The readers that use pandas return what the lines state", "statement": "Reading a raw file of the formats 0.8 and 0.85 keeps exactly the data, GPS and metadata lines after the sixth line, in their order, with the whole milliseconds of their clock values and their cells (empty cells as NaN); lines of other kinds, lines of one letter and lines without clock value leave no trace. The tables read from such a file are consistent with those lines, and a file with samples and metadata is refused only if GPS data are required and no line gives a plausible fix. The fallback reader of the later formats gives the same rows with the same numbers as the fast reader, or refuses the file for the same reason, on every file whose first six lines are no data and whose lines are complete with whole clock values.", "quantifier": "all heads of six lines, all sequences of data, GPS, metadata and other lines with LF or CRLF, any last line without line end, any number of lines up to the fast reader's limit, with and without GPS required", "why_tests_cant": "The old formats and the fallback are exercised by one file each; that no line is lost, reordered or misread, and that two independent readers agree, concerns all files.", "anchors": ["gemlog/core.py: _read_0_8_pd, _read_with_pandas, _read_with_cython, _read_single"]}
{"id": "C59", "title": "An interrupted conversion can be run again", "statement": "A conversion that is killed at any point, also in the middle of writing a file and any number of times, and then run again to its end leaves the same waveform files, whole, and the same folders as one that was never interrupted; nothing else in the folders has changed except that each call has its own logs. Running again is always possible. A GPS or metadata log that is there after a call is never changed by later calls. Up to a thousand calls, the GPS summary of an instrument reads the log of the last call that converted it.", "quantifier": "all sets of instruments with different serial numbers and codes, all numbers of calls, all points at which each is killed, all orders of the workers' steps, all initial contents of the folders", "why_tests_cant": "Crash points and histories of calls cannot be enumerated by tests; a lost log or a waveform left incomplete after a second run shows only for particular points of interruption.", "anchors": ["gemlog/core.py: convert, _make_filename, _write_hourlong_mseed", "gemlog/gemconvert.py: main, convert_single_SN", "gemlog/gem_network.py: read_gps"]}
{"id": "C60", "title": "Summaries of converted files describe what is in them", "statement": "make_db lists exactly the files that can be read and have a trace, in the order of their names, with station, location, start, end, highest and lowest sample of the first trace; unreadable files are skipped and there is no table exactly if nothing can be read or a first trace is unusable. check_lags looks at every window from one window length after the full hour of the first data until the end of the data, a window counts exactly if enough pieces can be correlated, the four outputs stay in step, the sum round the ring is zero if the shifts are differences of arrival times, and a call with a positive window length ends. plot_lags draws, for the first three stations of both tables, one dot per window at the lag or correlation found, and none where the shifts do not add up to zero if only consistent windows are wanted. plot_amp prints the quartile and draws the amplitudes of every station once, in order of first appearance. Findings: the legend of plot_amp names the lines rightly only if the stations first appear in the order of their names, lags of fewer than three stations cannot be drawn, only the first trace of a file counts, the first window is never looked at, the frequency band of check_lags has no effect, parts of one station may be correlated with each other, a window length of zero never ends, and calc_channel_stats always raises.", "quantifier": "All folders of files, traces and samples; all tables, window lengths, frequency bands and correlation functions", "why_tests_cant": "The folders, numbers of windows and places of gaps are unbounded, and that a call never succeeds or that an argument never matters cannot be seen from examples", "anchors": ["gemlog/gemlog_aux.py: make_db", "gemlog/gemlog_aux.py: check_lags", "gemlog/gemlog_aux.py: plot_lags", "gemlog/gemlog_aux.py: plot_amp", "gemlog/gemlog_aux.py: calc_channel_stats"]}
{"id": "C61", "title": "The instrument response is that of sensor and logger together", "statement": "get_gem_response returns the stages of the chosen logger with the first one replaced by the sensor's, in the sensor's units and with the sensitivity of both together at 0.05 Hz; it is refused exactly if a file cannot be read or has too few stages, or if no logger is named and the gain is neither high nor low (in any letter case). deconvolve_gem_response treats every trace of a stream alike, in order, and changes nothing if the response is refused. Findings: gain low gives the response of high gain, so data recorded at half gain give half the pressure; and a removal that fails part way leaves earlier traces changed.", "quantifier": "All gains, file names, response files, streams, samples and removal functions", "why_tests_cant": "That an argument makes no difference for any response files, and that all traces of any stream are treated alike, cannot be seen from examples; the existing tests only call the function with both gains", "anchors": ["gemlog/gem_network.py: get_gem_response", "gemlog/gem_network.py: deconvolve_gem_response", "gemlog/gem_network.py: _read_response"]}
{"id": "C62", "title": "What was recorded comes out at its true time", "statement": "Let a logger record samples, GPS fixes and state-of-health readings with a counter that rolls over at 8192, and write them down in the documented lines, full or abbreviated. If the true time is a cubic function of the counter and the fixes are exact, then the samples read back by read_gem are the recorded values at exactly the true times; so they are if one fix of a file with at least 33 fixes is wrong by any amount, the clock runs at an even rate, and the wrong fix has no more than 16 times the average influence on a cubic fit. If each file has a steady clock, ten fixes or more that cover over half of it, and samples at most 25 ms apart, and the files continue one another, then the block is read without a problem, and the resampled stream has a value at every grid time (recorded values where a sample was taken at a grid time). convert then returns without a problem and its output files, in order and each in one window, hold these values.", "quantifier": "All sequences of events, all ways of writing them as documented lines, all cubic clocks, any number of files and blocks, any number scanner, least-squares fit and interpolation with the stated contracts", "why_tests_cant": "It must hold for every recording and every clock drift; tests have a few recordings, for which the true times are not known", "anchors": ["gemlog/parsers.pyx: parse_gemfile", "gemlog/core.py: _process_gemfile_output", "gemlog/core.py: _unwrap_millis", "gemlog/core.py: _calculate_drift", "gemlog/core.py: _read_several", "gemlog/core.py: _apply_segments", "gemlog/core.py: _interp_time", "gemlog/core.py: read_gem", "gemlog/core.py: convert"]}
{"id": "C63", "title": "From waveform files to a file of directions", "statement": "The lags command writes one table made of the tables of the days, one below the other; the directions command adds the direction of each line. Together they put into the output file, day by day, the plane wave that fits the lags of each window best, for the samples of the wanted channels in the wanted interval, if all days have the same stations and these are not on one line. A station lacking on a later day costs only that day's directions. Positions are kilometres from the average position, and the origin does not matter. A stream whose traces carry their places on earth gives the same positions as an inventory of the same sensors, with their own elevations; one whose traces carry places in kilometres keeps these; a trace without a place is an error. At every moment only the output file of a command differs from before, and it holds a beginning of its final text; if an option is missing or a file cannot be read, nothing differs. Not true: that a directions command that fails leaves files as they were (the output is emptied first, and with it the lags if the same name is given for both); that directions are found if they are found for each day alone (a station lacking on the first day can make the inversion of the joined table raise).", "quantifier": "All files, options, intervals, numbers of days and stations, all moments at which a command may be interrupted; any reader and writer of tables and inventories, any projection", "why_tests_cant": "Crash points and combinations of days and stations are unbounded; tests run the functions on one synthetic day and never the commands", "anchors": ["gemlog/xcorr.py: xcorr_all_terminal", "gemlog/xcorr.py: calculate_direction_terminal", "gemlog/xcorr.py: xcorr_all", "gemlog/xcorr.py: loop_through_days", "gemlog/xcorr.py: get_coordinates", "gemlog/xcorr.py: invert_for_slowness"]}
{"id": "C64", "title": "Conversion of raw files to format 0.95", "statement": "Converting a raw file of format 0.85C, 0.9 or 0.91 to format 0.95 loses, adds, reorders or changes no sample count, and leaves GPS and metadata records as they are. A sample of at most 12 counts either way is written as one letter and its clock modulo 4096 in hexadecimal; others are copied. The output is at most 15 bytes longer than the input. Other formats are rejected. Not true: that times survive (the reader dates these samples 10 ms after the one before, so that they do exactly for steady recordings); that another reader could recover them (two files can have the same conversion); that the library can read the converted file (version 0.95 is refused).", "quantifier": "All raw files of these formats whose sample lines are as documented, all splits into lines, any state of the reader's buffer", "why_tests_cant": "There are unboundedly many files; no test calls this converter", "anchors": ["gemlog/gemlog_aux.py: _convert_raw_091_095", "gemlog/parsers.pyx: parse_gemfile"]}
{"id": "C65", "title": "How the commands end and what they log", "statement": "gemconvert runs one task per serial number of its plan, in order, at most as many at a time as processes asked for. At every moment, whatever the schedule and whichever worker died, the log holds the first lines of each task begun, in their order; when all has ended, all of them; with one process, task after task. The pool always ends. After a run without dead workers the log tells for each serial number whether its conversion raised, was interrupted or returned problems; and at any moment 'Completed' without 'Fatal error' means converted. A test run converts nothing. The exit status is 2 for a command line not understood, 1 if no process is asked for or a number is missing, else 0. gem_cat and the huddle test follow the options given last. Not true: that the status tells of failed conversions; that a dead worker leaves the others unaffected or visible in the status; that with two processes an error message can be attributed; that numpy's allocation error gets its explanation; that gem_cat's failure is visible in its status; that --serialnumber has an effect on the huddle test.", "quantifier": "All plans, results of conversions, numbers of processes, schedules, moments of a worker's death, command lines and error messages", "why_tests_cant": "There are unboundedly many schedules and death points; the tests run one process on one folder", "anchors": ["gemlog/gemconvert.py: convert_single_SN, parse_error, main", "gemlog/gem_cat.py: main", "gemlog/huddle_test.py: main"]}
{"id": "C66", "title": "From the card to the archive", "statement": "If a folder holds the raw files of a logger, as bytes (a head with a current format, the serial number and a valid gain, then the lines that say what was recorded), and the recordings asked for are one unbroken record with exact GPS fixes (or one wrong fix among 33 or more in a file, as in C62, that keeps the order of the fixes), then converting the folder returns without a problem to report. The output files are in time order without overlap, each within one window of the file length. Within each block there is a value at every hundredth of a second from the first sample to 25 ms before the last (from 1.01 s after the beginning of the record on); where a sample was recorded at such a time it is that sample; every other value is explained by recorded samples at their true times, or fills a gap of at most three intervals. And for any files at all, damaged ones too, the conversion depends only on the files FILEnnnn.SN and FILEnnnn.TXT: not on other files in the folder, nor on the order of the listing.", "quantifier": "All folders, serial numbers, recordings, clocks, GPS fixes, heads, block lengths, file lengths and numbers asked for", "why_tests_cant": "Tests convert two or three example folders; they cannot range over what was recorded or over what else is in the folder", "anchors": ["gemlog/core.py: convert, read_gem, _read_SN, _read_format_version, _read_config, _find_nonmissing_files, _read_several, _read_single, _assign_times"]}
{"id": "C67", "title": "From the card to the archive by way of gem_cat", "statement": "If a folder holds the raw files of a logger, as complete lines in one of the formats 0.85C, 0.9 and 1.10, and no other file that gem_cat would take, then gem_cat returns, and the folder it writes is the card of one recording per group of files: number 0, 1, ... in order, with the samples of all files of the group, each with the value it had. If each group is one run of the clock with exact GPS fixes and the groups are one unbroken record, then converting the merged folder returns without a problem, and the archive holds every sample from the first file with GPS data on at its true time: also those of files without GPS data, which cannot be converted by themselves. The groups need not be one unbroken record: if the logger was switched off between groups, or samples are missing, and the fixes in the files are sound, then from any start time on the archive holds the samples of every stretch without a gap, and nothing in a pause.", "quantifier": "All folders, serial numbers, extensions, start times, pauses, recordings with and without GPS data, clocks, heads, block lengths and file lengths", "why_tests_cant": "Tests merge one example folder; they cannot range over the contents and groups of the files, nor relate the archive to what was recorded", "anchors": ["gemlog/gem_cat.py: gem_cat, AppendFile", "gemlog/core.py: convert, read_gem"]}
{"id": "C68", "title": "A logger that was switched off and on: pauses stay pauses", "statement": "If the recordings asked for on a card are in time order and each can be used by itself (it consists of stretches of 0.1 s or more without a gap, with at most 1000 counts of missing samples between them, its counts are within 0.01 % of 1.024 ms, its fixes are exact and trustworthy), and the whole record lasts 1.04 s or more, then convert returns without a problem however often the logger was switched off and its counter began anew, and however many samples it failed to write. The archive has a value at every grid time where samples follow each other without a pause (from 1.005 s after the beginning of the record on), the recorded ones where a sample was taken at a grid time; it has no value at all in a pause of more than 30 ms; and every value is explained by recorded samples at their true times or fills a gap of at most three intervals.", "quantifier": "All cards, serial numbers, recordings, pauses between and within them, clocks, block lengths and file lengths", "why_tests_cant": "Tests convert one example folder; restarts of the counter and pauses at arbitrary places of files and blocks cannot be enumerated", "anchors": ["gemlog/core.py: convert, read_gem, _interp_time, _find_breaks, _read_several"]}
{"id": "C69", "title": "The GPS log and the state-of-health log of a card", "statement": "For a conversion as in C68 (from a given time or not), the GPS log has for every fix in the recordings asked for, in their order, a row with its second, the latitude and longitude that were written down and the year and fractional day of that second, except that fixes of the first block a second or more before the start of the conversion are dropped; the state-of-health log has for every reading, in order, a row with the numbers that were written down, and the true time at which it was taken if that is between the first and the last sample of its file.", "quantifier": "All cards, serial numbers, recordings with their fixes and readings, clocks, block lengths, file lengths and start times", "why_tests_cant": "Tests compare one example log; which fixes and readings of which block end up in a log, and at what time, depends on every line of every file", "anchors": ["gemlog/core.py: convert, read_gem, _process_gemlog_data, _assign_times, _reformat_GPS, _read_several"]}
{"id": "C70", "title": "Converting a card from a given time", "statement": "If convert is asked to start at a time that is 35 ms or more before the end of the record of a card as in C68, it starts there: it writes no value before that time, and from that time on everything it would write without it (a value at every grid time where samples follow each other without a pause, the recorded ones where a sample was taken at a grid time, none in a pause, and nothing that is not explained by recorded samples). Without a start time it starts at a whole second, at most 1.005 s after the beginning of the record.", "quantifier": "All cards, serial numbers, recordings, pauses between and within them, clocks, block lengths, file lengths and start times", "why_tests_cant": "Tests start at one time of one folder; a start inside any block, file, pause or before the record cannot be enumerated", "anchors": ["gemlog/core.py: convert, read_gem, _interp_time"]}
{"id": "C71", "title": "Noise spectra", "statement": "gem_noise and ims_noise return a number for every frequency asked for (those of the package's table if none are given): at the frequencies of the table the power that the table states, outside the table NaN, in the units that were asked for. Amplitudes squared, and decibels raised, are the powers that a call for powers returns, for the spectrum and for the noise over a band. Noise over a band is NaN unless both limits are given, lies between the least and the greatest power in the band times its width, and adds up over bands that meet. Types, versions and models are recognised whatever their case, and anything else raises.", "quantifier": "All tables, frequencies, bands, types of spectrum, versions and models; every spline through the points of the table, every integration that is exact", "why_tests_cant": "Tests check two numbers of one band each; agreement of the three units and of bands concerns every frequency and band", "anchors": ["gemlog/gemlog_aux.py: gem_noise, ims_noise, _noise_spectrum_helper"]}
{"id": "C72", "title": "A look for discontinuities", "statement": "check_discontinuity prints nothing exactly if all samples of the files are of one id and none is missing between the first and the last; otherwise it prints every stretch of samples without a gap once, with its id, first and last time, ordered by id and then by time. The order of the files and overlaps with equal values make no difference; a file that cannot be read raises.", "quantifier": "All lists of files, ids, traces and gaps", "why_tests_cant": "Tests do not call it; gaps, overlaps and orders of files cannot be enumerated", "anchors": ["gemlog/gemlog_aux.py: check_discontinuity"]}
{"id": "C73", "title": "From the card to the map", "statement": "A card is converted whose logger stood in one place (all its fixes are within 0.00005 degrees in latitude and in longitude), and its GPS log is put into a folder of GPS logs, where it is the newest of its logger. Then summarize_gps has exactly one line for the logger: as many rows as the log has, a position inside the bounds of the fixes, the times of the first and the last fix in the log. An inventory is made from that summary whenever all rows of the table of stations name the logger; and in every inventory made from it, every channel for which the table names the logger has that position, from an hour before the first to an hour after the last fix. If the logger was also recording elsewhere (at most one fix in 36, each 0.0021 degrees or more off), all this holds of the fixes at its place.", "quantifier": "All cards as in C69, all bounds, all folders of logs of any loggers, all tables of stations with integers as serial numbers", "why_tests_cant": "Tests check the conversion, the summary and the inventory each by itself on fixed files; that what one writes is what the next needs concerns every card and folder", "anchors": ["gemlog/core.py: convert, _reformat_GPS", "gemlog/gem_network.py: summarize_gps, read_gps, _remove_outliers, make_gem_inventory"]}
{"id": "C74", "title": "The clock and the samples in double precision", "statement": "Reading a raw file in IEEE double precision, with every sum, difference and product rounded to a nearest double, gives what exact arithmetic gives, as long as the clock values in the file are whole milliseconds and the counts whole numbers: the rows of the file are the same, the unwrapped times are the same, reading fails in the same cases with the same error, the samples, the metadata and the GPS rows are the same, and the times of the samples differ by at most a millionth of a millisecond (for times up to 2^32 ms), because the correction of 8.93 ms is not a double.", "quantifier": "All roundings to nearest (ties either way), all scanners, all bytes of files, all file formats, all offsets that are whole milliseconds up to 2^50, all outcomes of the other readers", "why_tests_cant": "Rounding errors depend on the values and on the length of the file: whether some combination of clock, rollover count and offset loses a bit cannot be seen from fixed files", "anchors": ["gemlog/parsers.pyx: parse_gemfile", "gemlog/core.py: _read_single, _process_gemlog_data, _read_with_cython"]}
{"id": "C75", "title": "Resampling in double precision", "statement": "The timed samples are resampled to 100 samples per second in IEEE double precision, with every operation and every constant rounded to a nearest double. For sample times that are doubles of the years 2004 to 2064: the runs between breaks are exactly those of exact arithmetic (each step over 25 ms or backwards is found, and no other); each run that can be interpolated gives a trace of as many samples as it has whole intervals of 0.01 s (with a tolerance of 10 microseconds); unless the run starts within 10 microseconds of the middle between two grid times, sample k of its trace is the value of the interpolant at the double nearest to the k-th grid time after the start, so rounding errors do not accumulate along a trace of any length; the call fails only if there is no timed sample or a run has hardly more than 0.01 s. Data that are on the grid already may lose one sample more than in exact arithmetic.", "quantifier": "All roundings to nearest, all interpolants, all sequences of samples of any length whose times are doubles of the years 2004 to 2064", "why_tests_cant": "An accumulated rounding error shows only in long traces and for particular start times (a comment in the code reports such a bug); no finite set of traces excludes it", "anchors": ["gemlog/core.py: _interp_time"]}
{"id": "C76", "title": "Sample times in double precision", "statement": "The time of a sample is computed in IEEE double precision from the clock value and the cubic of its file, every sum and product being rounded to a nearest double and the power x**3 having a relative error of at most 2^-52. A clock value gets a time exactly if it does in exact arithmetic, and the two times differ by at most two microseconds; times that are more than four microseconds apart stay in order; so the stream resampled in double precision is that of the same samples at times within two microseconds of the exact ones. This is for fits with times between 2004 and 2065, clock values up to 49 days and square and cubic terms up to 1000 s.", "quantifier": "All roundings to nearest, all power functions of that accuracy, all headers (any number of files, accepted or not), all clock values in the range, all interpolants", "why_tests_cant": "The rounding error depends on the coefficients and the clock value; fixed files show it only for their own", "anchors": ["gemlog/core.py: _apply_fit, _apply_segments, _assign_times, _interp_time"]}
{"id": "C77", "title": "Joining several files in double precision", "statement": "Reading and joining the files of a station in IEEE double precision (every sum and difference rounded to a nearest double) gives the same result as exact arithmetic but for 10 nanoseconds in the clock values, however many files there are: an interrupt ends both or neither, the same files are rejected for the same reasons, the samples, metadata and fixes are the same, and the decisions made on clock values (which file is moved by a rollover, which is discontinuous) agree. This is for whole counter values, clock values within 49 days, no file that begins exactly at the last sample before it and no two consecutive samples exactly a second apart; files written by a logger have whole counter values.", "quantifier": "All roundings to nearest, all file lists and contents, all firmware versions, all clock fits that are stable under changes of 10 nanoseconds", "why_tests_cant": "The corrected clock values are not whole numbers, so each comparison is made on rounded values and each file starts from the rounded end of the last; only a proof shows that no run of files accumulates error or flips a decision", "anchors": ["gemlog/core.py: _read_several, _read_single, _process_gemlog_data, _unwrap_millis"]}
{"id": "C78", "title": "From raw files to sample times and traces in double precision", "statement": "Computed in IEEE double precision from the raw files on (reading, unwrapping, joining, times, resampling), every sample has the value it has in exact arithmetic and a time within eps + 2 microseconds of the exact one, where eps bounds how far the clock fits of the two computations differ; a sample gets a time in both or in neither. If the files are recordings with exact GPS fixes, read without a problem, each recorded sample gets its value and a time within eps + 2 microseconds of the true one. This is for the runs of C77 with samples at least a microsecond apart, files with serial numbers and fits as in C76.", "quantifier": "All roundings to nearest, all power functions as in C76, all lists of files and recordings, all fits, all interpolants", "why_tests_cant": "Errors of reading, joining and fitting meet in the comparison of each clock value with the span of each file; fixed inputs show only their own", "anchors": ["gemlog/core.py: _read_several, _apply_segments, _assign_times, _interp_time, _calculate_drift"]}
{"id": "C79", "title": "Backazimuth and slowness are those of the wave", "statement": "For any array that is not on one line, a plane wave from any direction gives exactly its backazimuth in degrees (between -180 and 180; due south as 180 or -180) and its slowness. Whatever the lags, the backazimuth and slowness reported are those of the plane wave that fits them best, and no other wave fits as well. If the lags differ from those of a wave, the slowness is off by at most the size of the errors over the aperture of the array, and the sine of the error of the direction is at most that over the slowness of the wave. It raises exactly if a station is not located or all are on one line. The bounds hold from the samples of a record on, for every window.", "quantifier": "All arrays, all directions and slownesses, all lags, all records and windows", "why_tests_cant": "Angles, quadrants and errors range over a continuum; a test sees a few directions", "anchors": ["gemlog/xcorr.py: invert_for_slowness, xcorr_one_day, apply_function_windows"]}
{"id": "C80", "title": "Correlation finds the delay between sensors", "statement": "If a signal without offset or trend reaches two sensors with any gains at any two samples, with silence around it and clear of the tapered ends of the window, the lag found between them is exactly the difference of the two times, provided it is within the maximum shift, and the coefficient is 1. In general the lag found is, of all shifts up to the maximum, the first one with the largest product of the two records; the coefficient is that product over the norm and never larger than 1 in size. Gain, offset and linear drift of a sensor change neither lag nor coefficient, and exchanging the sensors reverses the lag. The lag is also exact if every sample has noise that can change the product of the records by less than half the distance between the peak of the signal and its other products with itself. For loggers side by side, check_lags reports for each window in which a signal reaches all of them the number of samples between the times at which they recorded it, also if some are reversed, if they have offsets or if there is noise from which the signal stands out, and these lags add up to zero. So if a plane wave passes an array and each sensor hears it, the lags in the table are right, the window counts as consistent with mean coefficient 1, and the reported direction and slowness are those of the wave, up to the error of counting times in whole samples over the aperture of the array. If each sensor has an offset, a drift and noise from which the signal stands out the same holds, with positive coefficients in place of 1.", "quantifier": "All signals, gains, delays, tapers and record lengths; all arrays, directions and windows", "why_tests_cant": "A test correlates a few wavelets; that no other shift of any signal can win needs a proof over all signals", "anchors": ["gemlog/xcorr.py: xcorr_function, xcorr_one_day, invert_for_slowness"]}
{"id": "C81", "title": "The clock is a least-squares fit, and one wrong GPS fix does no harm", "statement": "The polynomial fitted to the GPS fixes is the one of its degree with the least squares, the only one, and there is one exactly if there are more different clock values than the degree. If, among 33 or more fixes of a clock that runs at an even rate, exactly one gives a wrong time (by any amount), and its place has no more than 16 times the average influence on a cubic fit, which holds for every place among equally spaced fixes, then exactly this fix is left out, the file is accepted, and the clock found is exactly the true one. With sixteen or fewer fixes no single fix is ever left out for being beyond four standard deviations.", "quantifier": "All sets of points, degrees, errors and places of the wrong fix; all numbers of fixes from 33 up", "why_tests_cant": "Tests spoil a fix in a few files; that no place and no size of error gets through or takes good fixes along needs a bound on all cubics over all numbers of points", "anchors": ["gemlog/core.py: _robust_regress, _calculate_drift, _detect_step"]}
{"id": "C82", "title": "The samples are put on the even grid by a true cubic spline, which changes no straight line and no steady record", "statement": "From at least two samples at increasing times the interpolation gives the cubic spline through them: one cubic for each interval, passing through the samples, with first and second derivatives that agree where they meet, and third derivatives that agree at the second and the last but one sample (a straight line for two samples, a parabola for three). There is only one such curve; fewer samples, times that do not increase and missing values are refused. A record that follows a polynomial of degree at most three comes out as this polynomial, rounded to the nearest count, at every sample time of the output; a record which is a combination of two others comes out as the same combination. For a whole card, through fits, spline, gaps and file cuts: if the recorded values lie on a straight line in time, every output value lies within 3/2 counts plus 1/100 s of its slope of this line, and if they are all equal, so are all output values.", "quantifier": "All numbers of samples, sample times and values; all cards with one unbroken record, all block lengths and file lengths", "why_tests_cant": "Tests compare a few interpolated records; that the linear system always has exactly one solution, and that the result is exact on all cubics, needs an argument over every number and spacing of samples", "anchors": ["gemlog/core.py: _interp_time, _convert_one_file, convert"]}
