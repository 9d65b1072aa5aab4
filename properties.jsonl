{"id": "C01", "title": "DataDict slash path = iterated lookup", "statement": "d[p] for a slash-separated p equals looking up the non-empty segments of p one after the other, starting at d; empty segments (leading, trailing, doubled slashes) are ignored; a key made only of slashes raises AssertionError; a missing segment raises KeyError; subscripting a scalar raises TypeError. A lookup never changes any container.", "quantifier": "every heap of (possibly nested, shared or cyclic) containers, every key string", "why_tests_cant": "the set of nestings, sharings and key strings is infinite, and \"never changes a container\" is about every heap", "anchors": ["src/pyhipp/core/containers/data_dict.py:DataDict.__getitem__", "src/pyhipp/core/containers/data_dict.py:DataDict.__split_key"]}
{"id": "C02", "title": "DataDict tuple keys", "statement": "d[k1,...,kn] returns the tuple (d[k1],...,d[kn]) (recursively for nested tuples), failing with the first failing component.", "quantifier": "every heap, every key tree", "why_tests_cant": "the tuple may nest to any depth and the first failing lookup may sit anywhere in it; what has been evaluated before it depends on both", "anchors": ["src/pyhipp/core/containers/data_dict.py:DataDict.__getitem__"]}
{"id": "C03", "title": "DataDict assignment writes exactly one cell", "statement": "A successful d[p]=v for a string p changes exactly the entry named by the last segment in the container reached by the preceding segments, keeps the position of an existing key, appends a new one, and leaves every other entry of every container unchanged; then d[p] reads v back provided that the store did not redirect the path to itself (always if the path containers are distinct from the written one). A failing assignment changes nothing.", "quantifier": "every heap (with aliasing), every key and value", "why_tests_cant": "any two sub-dictionaries may be the same object, so 'only this cell changes' is a statement about every other path of every heap, not about the paths a test happens to read", "anchors": ["src/pyhipp/core/containers/data_dict.py:DataDict.__setitem__"]}
{"id": "C04", "title": "DataDict tuple assignment/deletion", "statement": "d[k1..kn]=(v1..vn) is the left-to-right sequence of the single assignments; length mismatch raises AssertionError and changes nothing (a str value is taken apart into characters, a mapping into its keys, a number is a TypeError); the first failing component stops the sequence and the earlier components stay in effect. Deletion likewise.", "quantifier": "every heap, key tree and value", "why_tests_cant": "a tuple assignment or deletion stops at the first failing key; the partial effect must be described for every nesting and every failure position", "anchors": ["src/pyhipp/core/containers/data_dict.py:DataDict.__setitem__", "src/pyhipp/core/containers/data_dict.py:DataDict.__delitem__"]}
{"id": "C05", "title": "DataDict deletion", "statement": "del d[p] removes exactly the named entry (afterwards d[p] raises KeyError when the path does not run through the written container), leaves all other entries and the order of the others unchanged; a failing deletion changes nothing.", "quantifier": "every heap, every key", "why_tests_cant": "that deletion removes exactly one entry and keeps the order of the rest must hold under every aliasing pattern of sub-dictionaries and every key", "anchors": ["src/pyhipp/core/containers/data_dict.py:DataDict.__delitem__"]}
{"id": "C06", "title": "DataDict copy/union/update", "statement": "copy() yields a fresh container with equal entries in equal order whose later modification does not affect the original entries (children are shared); d|=o and d.update(o) are right-biased and keep the position of existing keys, appending new keys in the order of o; d|o does not change d or o; `in` answers only for direct children; every key that is visible by iteration and contains no slash can be read with []. Keys containing a slash that entered through the constructor/update are reported by `in` but not reachable with [] (finding).", "quantifier": "every heap, all pairs of mappings", "why_tests_cant": "right bias, key order and the sharing of children are statements about all pairs of mappings and all later writes to either", "anchors": ["src/pyhipp/core/containers/data_dict.py:DataDict.copy", "src/pyhipp/core/containers/data_dict.py:DataDict.update", "src/pyhipp/core/containers/data_dict.py:DataDict.__or__", "src/pyhipp/core/containers/data_dict.py:DataDict.__ior__", "src/pyhipp/core/containers/data_dict.py:DataDict.__contains__"]}
{"id": "C07", "title": "DataTable value isolation", "statement": "Columns stored through the constructor (copy=True), item assignment, update(copy=True), |, concat, subset(copy=True), subcol(copy=True) and copy() never share storage with the caller's arrays or with other tables: writing to any pre-existing array does not change the new table and vice versa. With copy=False they do share, and t[k] returns the stored array itself. to_dict obeys the same rule; t[k1, k2, ...] is the stored arrays in the order asked and fails for the first name that is no column.", "quantifier": "every table, every sequence of later in-place writes", "why_tests_cant": "isolation is about every later in-place write through every array the caller still holds; tests try a few writes", "anchors": ["src/pyhipp/core/containers/data_table.py:DataTable.__init__", "src/pyhipp/core/containers/data_table.py:DataTable.__setitem__", "src/pyhipp/core/containers/data_table.py:DataTable.copy"]}
{"id": "C08", "title": "DataTable row alignment", "statement": "subset(args) applies the same row selection to every column, so row j of the result is row sel(j) of the source in every column; concat stacks the rows of the tables in order for each key of self; subcol keeps exactly the requested columns; row counts stay equal across columns; failures (missing column) raise KeyError and leave the operands unchanged.", "quantifier": "all tables, all masks/index arrays/slices, any number of tables", "why_tests_cant": "tables, selections and numbers of tables of any size; misaligned rows show only for particular selections", "anchors": ["src/pyhipp/core/containers/data_table.py:DataTable.subset", "src/pyhipp/core/containers/data_table.py:DataTable.concat", "src/pyhipp/core/containers/data_table.py:DataTable.subcol"]}
{"id": "C09", "title": "DataTable is an insertion-ordered map", "statement": "For every sequence of set/del/update/clear operations (with single or tuple keys), the table behaves as an insertion-ordered map: keys(), len, in, [] agree, no duplicates, tuple operations are left-to-right, attribute access t.k equals t[k] or raises AttributeError.", "quantifier": "every history of operations", "why_tests_cant": "the order of columns depends on the whole history of insertions, replacements and deletions, of any length", "anchors": ["src/pyhipp/core/containers/data_table.py:DataTable.__setitem__", "src/pyhipp/core/containers/data_table.py:DataTable.__delitem__", "src/pyhipp/core/containers/data_table.py:DataTable.update", "src/pyhipp/core/containers/data_table.py:DataTable.__getattr__"]}
{"id": "C10", "title": "HDF5 dump/load round trip", "statement": "Group.dump of a nested mapping (keys: plain link names) into a group that has none of these names, followed by Group.load, gives back the same nested mapping as DataDicts, in name order, with str turned into bytes; File.dump_to / load_from likewise for any key path.", "quantifier": "all finite nested mappings with supported leaves, all prior file contents", "why_tests_cant": "nesting depth, width, leaf types and prior file contents are unbounded", "anchors": ["src/pyhipp/io/h5/named_objs.py:Group.dump", "src/pyhipp/io/h5/named_objs.py:Group.load", "src/pyhipp/io/h5/named_objs.py:File.dump_to", "src/pyhipp/io/h5/named_objs.py:File.load_from"]}
{"id": "C11", "title": "HDF5 dump pre-scan", "statement": "If any key at any depth is not a string or any leaf is unsupported (or the top object is no mapping), Group.dump raises TypeError and the file is unchanged; if the scan passes, TypeError is never raised by the scan.", "quantifier": "all nested inputs and file states", "why_tests_cant": "the bad item may sit at any depth, after any number of good ones; \"unchanged\" is about every file", "anchors": ["src/pyhipp/io/h5/named_objs.py:Group.dump", "src/pyhipp/io/h5/utils.py:Utils.is_data_dict_supported"]}
{"id": "C12", "title": "HDF5 creation flags", "statement": "Flag outside {x,ac,ca} raises ValueError with the file unchanged (dump of an empty mapping excepted: the flag is never looked at). Under \"x\" no object that existed before is ever modified or removed: the file after (successful or failing) dump extends the file before. Under \"ac\"/\"ca\" nothing is removed, and only datasets named by the input change their value.", "quantifier": "all files, inputs, flags and failure points", "why_tests_cant": "file states and failure positions inside a dump are unbounded", "anchors": ["src/pyhipp/io/h5/named_objs.py:DatasetManager.create", "src/pyhipp/io/h5/named_objs.py:Group.create_group", "src/pyhipp/io/h5/named_objs.py:Group.dump"]}
{"id": "C13", "title": "HDF5 overwrite keeps dtype and shape", "statement": "Overwriting an existing dataset through flag \"ac\" or by item assignment stores the new data converted to the stored dtype and broadcast to the stored shape; dtype and shape never change; reading back returns the written data exactly when it is representable there (finding: writing 1.5 over an int dataset reads back 1; a different shape raises).", "quantifier": "all stored datasets and new data", "why_tests_cant": "all dtypes, shapes and data; conversion and broadcasting depend on every value", "anchors": ["src/pyhipp/io/h5/named_objs.py:DatasetManager.create", "src/pyhipp/io/h5/named_objs.py:DatasetManager.__setitem__"]}
{"id": "C14", "title": "HDF5 dump_to/load_from key paths", "statement": "dump_to with a key path writes at exactly the object named by the non-empty segments, creating missing parents iff create_parent; with create_parent=False a missing parent raises KeyError and leaves the file unchanged; everything not under the target is unchanged.", "quantifier": "all files, key strings, inputs", "why_tests_cant": "key paths of any length over any file; the failure may come at any segment", "anchors": ["src/pyhipp/io/h5/named_objs.py:File.dump_to", "src/pyhipp/io/h5/named_objs.py:File.load_from"]}
{"id": "C15", "title": "HDF5 group-like objects", "statement": "from_h5_group(to_h5_group(obj)) rebuilds an equal object for every object tree described by h5_data_typedict (arrays, str, DataTables, nested group-like objects), except that the columns of the tables in it come back in name order (C85); a declared field that the object lacks is an AttributeError, one that the file lacks a KeyError.", "quantifier": "all object trees", "why_tests_cant": "Object trees of any depth with any type description, in any file: the equality is an induction over the tree, and a test fixes one tree.", "anchors": ["src/pyhipp/io/h5/abc.py:GroupLike", "src/pyhipp/io/h5/abc.py:to_h5_data", "src/pyhipp/io/h5/abc.py:from_h5_data"]}
{"id": "C16", "title": "HDF5 attributes and dataset managers", "statement": "Item assignment requires existence (KeyError otherwise, nothing changed) and preserves dtype and shape; create obeys the flag; create_empty never changes an existing value; reading returns the last value written; other names are unchanged; keys() lists exactly the datasets / attributes. attrs.dump writes a whole mapping in order and stops at the first failure with the earlier ones written; load returns exactly the chosen names that match the pattern, with their values; dump then load gives back the mapping.", "quantifier": "all histories of manager operations", "why_tests_cant": "what a manager returns depends on the whole history of dumps, loads and deletions through any number of managers on the same object", "anchors": ["src/pyhipp/io/h5/named_objs.py:AttrManager", "src/pyhipp/io/h5/named_objs.py:DatasetManager"]}
{"id": "C17", "title": "HDF5 listing", "statement": "Group.what shows every member (subject to the dset/group switches) exactly once in name order and descends exactly to max_depth; the last drawn member is marked as last unless filtered out (finding: with dset=False/group=False the last shown line may lack the end marker).", "quantifier": "all trees, depths and switches", "why_tests_cant": "the listing recurses over trees of any depth and width, with soft links and with depth limits cutting anywhere", "anchors": ["src/pyhipp/io/h5/named_objs.py:Group.what"]}
{"id": "C18", "title": "HDF5 soft links", "statement": "create_soft_link obeys the flag and never changes an existing object; the member made holds exactly the given path (create_external_link: file name and path), and opening a soft link opens what its path names from that group (the root for an absolute path); a dangling link is not reported by `in`, so recreating it fails even with flag \"ac\" (finding).", "quantifier": "all file states", "why_tests_cant": "all file states and link targets, including chains and dangling ones", "anchors": ["src/pyhipp/io/h5/named_objs.py:Group.create_soft_link", "src/pyhipp/io/h5/named_objs.py:Group.create_external_link"]}
{"id": "C19", "title": "HDF5 key selection", "statement": "KeyList.matched and the managers' load(key_re, keys) select exactly the matching keys, in order, as a DataDict; a missing key raises KeyError.", "quantifier": "all key lists and patterns", "why_tests_cant": "key lists of any length and an arbitrary match predicate", "anchors": ["src/pyhipp/io/h5/utils.py:KeyList.matched", "src/pyhipp/io/h5/utils.py:Utils.find_matched_keys", "src/pyhipp/io/h5/named_objs.py:DatasetManager.load"]}
{"id": "C20", "title": "Fortran records: any mixture of loads and skips", "statement": "On a file made of length-prefixed and length-suffixed records, with anything before the current position and after the last record, every sequence of load_sect / skip_sect calls that asks each record for its own size succeeds; the k-th call, when it is a load, returns the payload of the k-th record cut into elements, and the position ends right after the last record visited. On any file skip_sect succeeds exactly when load_sect does and stops at the same position; load_rec / skip_rec move alike. (Findings: with a scalar type such as np.float32 loading works but skip_sect always raises TypeError; skip_rec with n = -1, which for a load means 'all that is left', goes one element back.)", "quantifier": "all record sequences of any number and sizes, all prefixes and suffixes, all interleavings of loads and skips, all element sizes", "why_tests_cant": "the records, their sizes and the interleavings of calls are unbounded, and a wrong position only shows in later calls", "anchors": ["src/pyhipp/io/binary/fortran.py:BinaryFile.load_sect", "src/pyhipp/io/binary/fortran.py:BinaryFile.skip_sect"]}
{"id": "C21", "title": "Fortran records: what is accepted", "statement": "load_sect accepts at a position exactly those byte strings that hold the requested number of elements enclosed by two equal four-byte markers; different markers always raise AssertionError, a file ending before the trailing marker IndexError. (Finding: the markers are compared with each other but never with the number of bytes asked for, so any marker value is accepted and asking for too little of a record can return wrong data without an exception.)", "quantifier": "all byte strings, positions, element sizes and counts", "why_tests_cant": "ranges over all byte strings; the accepted ones are characterised exactly, which needs every rejected one too", "anchors": ["src/pyhipp/io/binary/fortran.py:BinaryFile.load_sect"]}
{"id": "C22", "title": "Excel dump/load round trip", "statement": "Writing a nested dict of tables and loading it with reorder gives the same keys, nesting and order back exactly when no key contains '.', no inner dict is empty and no top-level dict is stored under the empty name; otherwise it does not. The sheet names are the access paths joined by '.' in order. Whatever workbook is loaded, the result has no dotted key and no empty inner dict. Dumping raises ValueError exactly when some sheet name is not acceptable and IndexError exactly when there is no table at all. (Findings: load_file(as_datatables=True) always raises ValueError; a workbook with a sheet 'a.b' followed by a sheet 'a' loads as the table 'a' alone, everything below it silently dropped.)", "quantifier": "all finite nested dicts with distinct keys, whatever the set of sheet names the writer accepts and whatever writing a sheet twice does", "why_tests_cant": "nesting and names are unbounded; the 'exactly when' covers every name that breaks the round trip", "anchors": ["src/pyhipp/io/excel/__init__.py"]}
{"id": "C23", "title": "YAML nested defaults", "statement": "ConfigFileParser.get(keys) returns exactly the requested keys, each with the value of the deepest level on the nested path that defines it, or raises KeyError exactly when some key is defined at no level (all levels being mappings); a success implies that every node named on the way exists. A name of the initial path that its level does not have raises KeyError, a path continued below a value that is not a mapping TypeError. (Finding: a level that is a string is searched for the key as a substring, giving TypeError or silently skipping.)", "quantifier": "all documents, all initial and nested paths, all key lists", "why_tests_cant": "documents, paths and the positions of overriding definitions are unbounded", "anchors": ["src/pyhipp/io/yaml.py:ConfigFileParser.get"]}
{"id": "C24", "title": "Bisection search", "statement": "For an ascending non-empty x and any query q, the search returns i in -1..n-1 with every x[j], j <= i, not above q and every x[j], j > i, above q. On any array at all (unsorted, NaN) it still ends, stays in bounds and returns a place whose neighbours bracket q. An empty array is AssertionError.", "quantifier": "all arrays of any length over any strictly weakly ordered element type, all queries", "why_tests_cant": "ranges over all lengths, values and comparison outcomes; off-by-one errors of a binary search depend on the length", "anchors": ["src/pyhipp/numerical/interpolate.py:bisearch"]}
{"id": "C25", "title": "Nearest element and interpolation weights", "statement": "The nearest-element search of an ascending array returns an index whose element is at least as close to the query as every other element. The interpolation weights are non-negative and sum to one at every query: both on the first node below the range, both on the last at or above its end, otherwise on the two nodes enclosing the query with weights proportional to the opposite distances. In binary64, too, the weights lie in [0, 1] and are exactly (1, 0) at a node.", "quantifier": "all ascending arrays and queries, ties included", "why_tests_cant": "ties between equal elements and queries at or between nodes can occur at every place of an array of any length", "anchors": ["src/pyhipp/numerical/interpolate.py"]}
{"id": "C26", "title": "Linear interpolation laws", "statement": "Interpolation reproduces the ordinates at the nodes, is exact for affine data, is the chord between the enclosing nodes and so lies between their ordinates, is monotone for monotone data, is constant outside the range (or the given left and right values), never leaves [min y, max y]; the two-dimensional one is exact for bilinear data; derivative() tabulates the difference quotients of the neighbouring nodes. In binary64 the nodes are reproduced without rounding error. (Finding: in binary64 the value can leave the range of the ordinates: between (0, 7) and (3, 7) it is below 7 at 1.)", "quantifier": "all node sets of any length, all ordinates and queries", "why_tests_cant": "exactness at nodes, monotonicity and range are laws over all node sets and all queries; tests sample finitely many points of a continuum", "anchors": ["src/pyhipp/numerical/interpolate.py:Linear"]}
{"id": "C27", "title": "Input check of the linear interpolator", "statement": "Linear(check=True) accepts exactly tables of two or more nodes, as many ordinates as abscissae and no two equal neighbouring abscissae; strictly increasing tables are always accepted. (Finding: the check does not require order, so unsorted abscissae pass and then a node's own ordinate is not returned.)", "quantifier": "all pairs of arrays", "why_tests_cant": "an exact characterisation of an accept set over all arrays", "anchors": ["src/pyhipp/numerical/interpolate.py:Linear"]}
{"id": "C28", "title": "Bin location", "statement": "For explicit and equal-space bins locate returns -1 below the first edge, the number of bins at or above the last, and otherwise the unique i with edge[i] <= x < edge[i+1]; locate with lower/upper bound clips to the first/last bin and changes nothing else; locate_nearest returns an edge of least distance; a bin centre is half way and located in its own bin. Explicit edges may come in any order; NaN sorts last. Under any monotone rounding the equal-space index never decreases with x and nothing at or above the lower bound is 'below'. (Findings: equal-space bins report +inf and samples beyond int64 bin widths as below the first edge; in binary64 the edge 7 of 9 equal bins of [0,1] is located in bin 6.)", "quantifier": "all edges, ranges, bin numbers and samples including NaN and infinities", "why_tests_cant": "the bin of a sample is decided by comparisons with every edge, so values on an edge, below the first and above the last must be right for all edge lists and samples", "anchors": ["src/pyhipp/stats/binning.py:BiSearchBins", "src/pyhipp/stats/binning.py:EqualSpaceBins"]}
{"id": "C29", "title": "Binned accumulation", "statement": "After any history of add calls every bin holds exactly the sum of the weights of the samples that fell into it; samples outside are dropped; the total over the bins is the weight of the in-range samples. A call with weights of another length raises AssertionError and adds nothing.", "quantifier": "all histories of calls, all bins, samples and weights", "why_tests_cant": "the totals must be right after every history of add calls, however the samples are split among them", "anchors": ["src/pyhipp/stats/binning.py:BinnedData"]}
{"id": "C30", "title": "Bin helpers: combining, centres, widths, sub-bins, ranges", "statement": "Combining n adjacent bins gives each window of n consecutive entries its sum, AssertionError unless 1 <= n <= length; centres and widths with a stride are those of edge i and edge i+stride; inserting s sub-bins keeps every edge, divides every interval into s equal parts and keeps the order; the percentile range of a sample is intersected with the given range; a bin specification with a number needs a range, one with edges excludes it.", "quantifier": "all edges, strides, sub-bin counts, samples and specifications", "why_tests_cant": "all lengths and strides; the windows interact with both ends of the array", "anchors": ["src/pyhipp/stats/binning.py"]}
{"id": "C31", "title": "Histogram of overlapped windows", "statement": "The call succeeds exactly when the weights match, the range is not reversed and 1 <= s <= n; the n sub-bins then cut the range into equal parts (a range of no width is widened by one half on each side). Every reported window has the centre, width and the total weight of exactly the samples in its interval of s sub-bins (last window closed at the upper end), and consecutive windows move by one sub-bin. (Finding: the entry sub_h is the combined histogram h, not the counts of the sub-bins.)", "quantifier": "all samples, weights, ranges, numbers of bins and sub-bins", "why_tests_cant": "all samples and window sizes; counting at edges depends on every value", "anchors": ["src/pyhipp/stats/binning.py:Hist1D"]}
{"id": "C32", "title": "Chunk ranges and offsets", "statement": "Range i runs from the sum of the first i sizes to the sum of the first i+1, so ranges abut, have the given sizes and cover [0, sum). Cutting sequences by sizes gives chunks that concatenate to the first sum(sizes) elements of each, no sequence being ValueError. Offsets of counts are the prefix sums, with or without the end.", "quantifier": "all lists of sizes, any number of sequences of any length", "why_tests_cant": "ranges must tile the index space without gap or overlap for every total, number of chunks and list of sizes", "anchors": ["src/pyhipp/core/dataproc/iter.py", "src/pyhipp/core/dataproc/data_structs.py"]}
{"id": "C33", "title": "Masks: conversion, zip, put, selection", "statement": "Boolean mask to indices and back is the identity, as is strictly increasing indices to mask and back; indices outside -n..n-1 raise IndexError. zip takes every element from the first array whose mask is true there, else the default. put writes exactly the masked positions, taking the values cyclically by position. One mask applied to several arrays or a dict selects the same rows of each. (Finding: put documents that a short mask is repeated; it raises ValueError.)", "quantifier": "all masks, index lists, arrays, numbers of arrays", "why_tests_cant": "all lengths and index values, negative ones included", "anchors": ["src/pyhipp/core/dataproc/mask.py"]}
{"id": "C34", "title": "Numeric helpers: bound, safe division and logarithms, normalize", "statement": "bound clips into [lo, hi] (NaN passes through), is idempotent and monotone, and changes the caller's array only with copy=False. safe_lg and safe_ln take the logarithm of max(x, lo) and are exact from lo on; safe_div is exact for denominators from lo on and bounded by |x|/lo. normalize keeps the direction and gives length one to vectors at least lo long. (Finding: a negative denominator is replaced by +lo, so 1 / -1 comes out as 1e10.)", "quantifier": "all real or extended values, bounds and vectors of any length", "why_tests_cant": "bounds, signs and zero or infinite values of either operand interact; the laws range over all reals", "anchors": ["src/pyhipp/core/dataproc/num.py"]}
{"id": "C35", "title": "Range filter", "statement": "The filter keeps, in order, exactly the elements with min <= x < max (a missing bound does not restrict; NaN is dropped by either bound); complementary ranges split an array without NaN.", "quantifier": "all arrays, all bounds, NaN and infinities included", "why_tests_cant": "a value on a bound, NaN or an infinity may occur anywhere in an array of any length, with either bound missing", "anchors": ["src/pyhipp/core/dataproc/filter.py"]}
{"id": "C36", "title": "Periodic box wrapping", "statement": "shift_in moves every selected coordinate by -L, 0 or +L: one within a period of the box lands in [0, L), one inside stays, unselected ones are untouched; after it test_bound succeeds and doing it again changes nothing. In IEEE binary64, too, every finite coordinate in [-L, 2L) ends in [0, L), never on L although x + L may round up to it. shift_to gives the image nearest to the reference when they are less than 3L/2 apart. The caller's array changes only with copy=False. (Finding: coordinates two periods away are not wrapped.)", "quantifier": "all coordinates, box sizes, selections, all binary64 values", "why_tests_cant": "ranges over all rationals and all doubles, including the roundings near the border", "anchors": ["src/pyhipp/core/dataproc/frame.py"]}
{"id": "C37", "title": "Grids", "statement": "A one-dimensional grid is accepted exactly when non-empty and sorted; locate gives its bin; extent is its least and largest point; centres lie half way and in order, AssertionError for one point. A grid of several dimensions is the product of its axes, its extent and its centres are those of the axes; the value of a function at a multi-index is that function of the grid point with these coordinates, with the first two axes exchanged in 'xy' layout.", "quantifier": "all numbers of axes, all grid points, all functions", "why_tests_cant": "the index arithmetic of flattened grids must agree for every number of axes and every size on each of them", "anchors": ["src/pyhipp/core/dataproc/grid.py"]}
{"id": "C38", "title": "Mesh cell lists", "statement": "Building the mesh index only reorders the points; the offsets table has one entry per cell plus one, starts at 0, never decreases and ends at the number of points; the segment of a cell lists exactly the points lying in it with multiplicity; every point lies in exactly one cell.", "quantifier": "all point sets, grid numbers and box sizes, every sorting routine's choice among equal keys", "why_tests_cant": "every point must be in exactly one cell's list for every point set, whatever order a sorting routine gives to equal keys", "anchors": ["src/pyhipp/field/neighbor/kd_mesh.py"]}
{"id": "C39", "title": "Mesh ball query", "statement": "The periodic ball query hands over every particle within radius r (some periodic image closer than r), nothing farther than r plus one cell along each axis, and each particle at most once when 2r <= L - one cell. A batch query hands each query point the arrays of its own single query, in whatever order the points are visited. (Finding: with r = L/2 the same particle is returned more than once.)", "quantifier": "all point sets, query points, radii, grid numbers and box sizes", "why_tests_cant": "unbounded point sets and real radii; wrap-around depends on the positions", "anchors": ["src/pyhipp/field/neighbor/kd_mesh.py"]}
{"id": "C40", "title": "Periodic distance and tree query", "statement": "The distance reported for two points of the periodic box is the distance to the nearest periodic image: a metric (zero only for equal points, symmetric, triangle inequality), at most L/2 along each axis. A query centre outside the box is rejected; inside, the result lists exactly the points whose nearest image is within r, and the distances asked for are those distances, hence at most r.", "quantifier": "all points in any dimension, all box sizes and radii", "why_tests_cant": "symmetry, the triangle inequality and completeness of the query must hold for all points, also far outside the box and on its faces", "anchors": ["src/pyhipp/field/neighbor/kd_tree.py"]}
{"id": "C41", "title": "Nearest grid point", "statement": "x_to_xi returns a valid index, and index i exactly when grid point i is the nearest one (up to whole periods; half way goes to the upper one); coordinates whole boxes apart get the same index; cell volume times number of cells is the box volume.", "quantifier": "all coordinates, box sizes and grid numbers", "why_tests_cant": "ranges over all rational coordinates, far outside the box too", "anchors": ["src/pyhipp/field/cubic_box/mesh.py"]}
{"id": "C42", "title": "Cloud-in-cell deposit", "statement": "Adding particles raises AssertionError exactly when weights and positions differ in number; otherwise the field's total grows by the total weight, each grid point receives from each particle its weight times the triangular-cloud share, non-negative weights never lower a cell, and neither whole-period shifts of particles nor their order matter.", "quantifier": "all particle lists, weights, grid numbers (1 and 2 included) and box sizes", "why_tests_cant": "unbounded particle lists; conservation must survive every wrap-around", "anchors": ["src/pyhipp/field/cubic_box/mass_assignment.py"]}
{"id": "C43", "title": "Field interpolation", "statement": "Interpolating a field at a grid point gives the grid value, lies between the field's extremes everywhere, reproduces constants, is periodic, exact for fields affine in the indices away from the seam, and equals the sum of the field against the deposit of one unit particle at that point.", "quantifier": "all fields, grid numbers, box sizes and points", "why_tests_cant": "the laws must survive wrap-around for every field, grid and position; tests sample a continuum", "anchors": ["src/pyhipp/field/cubic_box/mass_assignment.py"]}
{"id": "C44", "title": "Cosmic web classification", "statement": "The classifier is built exactly when there is one non-decreasing eigenvalue triple per cell. At every point the type is the number of eigenvalues of the nearest grid point above the threshold; the fractions of the four types lie in [0, 1] and sum to one; the grid points of a type are each listed once and are exactly those of that type; unknown type names raise KeyError.", "quantifier": "all eigenvalue fields, NaN included, thresholds, points and names", "why_tests_cant": "the four types must partition every field at every threshold, NaN and equal eigenvalues included", "anchors": ["src/pyhipp/field/cubic_box/cosmic_web.py"]}
{"id": "C45", "title": "Joining density dumps", "statement": "Joining the dumps of fields built from several particle samples gives the field of all the particles together, and any dumps of one size are added point by point. No dump at all is UnboundLocalError, dumps of different sizes ValueError.", "quantifier": "all partitions of all particle lists", "why_tests_cant": "the joined field must not depend on how the particles were split, for every number of parts", "anchors": ["src/pyhipp/field/cubic_box/field.py"]}
{"id": "C46", "title": "Tidal field solver", "statement": "The overdensity is ValueError exactly when the mean density is below 1e-10; otherwise it has zero mean and rho = mean (1 + delta). The solver's potential satisfies Poisson's equation mode by mode, the tidal tensor is its second derivative mode by mode, is symmetric, has the smoothed overdensity as its trace at every point (hence the eigenvalues sum to it) and does not depend on the normalisation of the density; without smoothing and shape correction the trace is the overdensity itself. For a density rho0 (1 + A cos(k.x + p)) below the Nyquist frequency the component (u, v) is exactly k_u k_v / k^2 times window over shape correction times A cos(k.x + p). The shape correction is the Fourier transform of the deposited cloud, never divides by zero and never damps. (Finding: the solver fails with ValueError for every odd number of grids.)", "quantifier": "all density fields on grids of any size, all box sizes and smoothing radii, exact real arithmetic of the discrete Fourier transform", "why_tests_cant": "identities over all real fields; the odd-size failure is a statement about every odd size", "anchors": ["src/pyhipp/field/cubic_box/gravity.py"]}
{"id": "C47", "title": "Smoothing", "statement": "The Gaussian window is exp(-|K|^2 r^2 / 2) for the wave vector K in box units; it is 1 at k = 0, in (0, 1], decreasing in |k| and in the radius, and successive smoothings add in quadrature. The top-hat window is the Fourier transform of the homogeneous ball (1 below |K| r = 1e-6) and at most 1 in absolute value; the effective volumes are 4/3 pi r^3 and (2 pi r^2)^(3/2). Smoothing multiplies every plane wave, up to the Nyquist frequency, by the window at its wave number; it is linear, keeps the mean, and radius 0 changes nothing. (Findings: FFTSmoothing rejects odd sizes with AssertionError; FourierSpaceSmoothing accepts them and returns an array one short along the last axis.)", "quantifier": "all fields, wave vectors, radii and sizes", "why_tests_cant": "values, monotonicity and composition are laws over all real wave vectors and radii", "anchors": ["src/pyhipp/field/cubic_box/smoothing.py"]}
{"id": "C48", "title": "Masked and row-wise reductions", "statement": "A reduction (sum, mean, standard deviation, count, quantile, median, error bar) with a mask equals the same reduction of the selected samples and weights; a table is reduced row by row; weights or masks of another shape are AssertionError. A weighted sum of arbitrary floats is NaN exactly if a product of sample and weight is undefined or there are infinite products of both signs, and otherwise infinite exactly if a product is. (Findings: a masked-out NaN makes the sum NaN; counting a table without a mask returns one number instead of one per row.)", "quantifier": "all samples, weights and masks, one- and two-dimensional", "why_tests_cant": "unbounded inputs; the findings are about values a mask should exclude", "anchors": ["src/pyhipp/stats/reduction.py"]}
{"id": "C49", "title": "Quantiles and error bars", "statement": "Quantiles at probabilities in [0, 1] never raise, lie between the least and largest selected sample and grow with the probability; unweighted, the k-th smallest of n samples is the quantile at k/(n-1) and the median the quantile at 1/2; without weights a probability outside raises ValueError. Error bars are never negative and stay within the extremes. The named levels are symmetric and hold 68, 95 and 99 percent. (Findings: with weights a probability outside [0, 1] is not refused but gives a value between the extremes; equal weights do not give the unweighted quantile; among tied samples the weighted quantile depends on the order they are given in; the two-probability specs always raise ValueError in an error bar.)", "quantifier": "all samples, positive-total weights, masks and probabilities", "why_tests_cant": "unbounded samples, all rational probabilities", "anchors": ["src/pyhipp/stats/reduction.py"]}
{"id": "C50", "title": "Reductions of nothing", "statement": "With nothing selected the mean, quantile and median return the fill value, the count and the sum 0, error bars the fill value with zero errors. (Findings: the standard deviation returns the square root of the fill value, NaN for the default one; the error bars of a table with no rows raise ValueError.)", "quantifier": "all samples, masks, weights and fill values with nothing selected", "why_tests_cant": "all shapes in which nothing is selected, all fill values", "anchors": ["src/pyhipp/stats/reduction.py"]}
{"id": "C51", "title": "Bootstrap resampling", "statement": "For every outcome of the generator a resample is made of whole rows - the same row numbers in every column of a dataset - with min(size, maximal size) rows, and every such list of rows is the outcome of some generator. The statistics function is called n_resample times, each time on a resampling; the result holds the mean and standard deviation over the calls of each requested statistic and everything else from the first call. (Findings: datasets given as a generator are consumed after the first resample; n_resample <= 0 is IndexError; columns of unequal length raise or not depending on the draw.)", "quantifier": "all generator outcomes, datasets, column numbers, sizes and statistics functions", "why_tests_cant": "ranges over all random outcomes and all statistics functions", "anchors": ["src/pyhipp/stats/sampling.py"]}
{"id": "C52", "title": "Standardize", "statement": "For a positive sd floor, Standardize(x_train)(., backward=True) undoes the forward call and vice versa for every input row, however small the spread of the training data; the standardized training table has mean 0 in every column and standard deviation 1 in every column whose own spread reaches the floor (the ratio to the floor otherwise); a constant column becomes zeros instead of dividing by zero; the order inside each column is kept; a 1-D training array raises AssertionError.", "quantifier": "all training tables, floors and input rows (exact real arithmetic)", "why_tests_cant": "tables and rows of any size and value; examples cannot cover the degenerate spreads", "anchors": ["src/pyhipp/stats/preprocessing.py:Standardize", "src/pyhipp/stats/preprocessing.py:Preprocess.__call__"]}
{"id": "C53", "title": "Rank transform to a normal distribution", "statement": "ProbTransToNorm(xs) accepts exactly the samples with at least two, pairwise different values (ValueError / AssertionError otherwise), whatever their order; the sample with k smaller ones is sent to k/(n-1) and back; forw is defined exactly between the extreme samples with values in [0,1], back exactly on [0,1] (ValueError elsewhere); both are strictly increasing and inverse to each other, also with the normal quantile function on top.", "quantifier": "all samples, all query points", "why_tests_cant": "samples of any size and any query point between them", "anchors": ["src/pyhipp/stats/prob_dist.py:ProbTransToNorm"]}
{"id": "C54", "title": "Point groups of the square and the cube", "statement": "Group.create('cubic'/'3d') contains 48 different operations whose matrices are exactly the 3x3 integer matrices with orthonormal columns; 'square'/'2d' has the 8 such 2x2 matrices; any other name raises KeyError. The members form a group (identity, inverses, closed under combined()), acting with a combined operation equals acting with its parts one after the other, and every member preserves all scalar products. combined() of groups lists all products in lexicographic order. len(group) always raises AttributeError (finding).", "quantifier": "all members, all combinations of any length, all real vectors, all lists of operations", "why_tests_cant": "vectors and combinations are infinite; completeness quantifies over all matrices", "anchors": ["src/pyhipp/group_theory/point_group.py:Op", "src/pyhipp/group_theory/point_group.py:Group"]}
{"id": "C55", "title": "The flat cosmology, its densities, conversions and unit system", "statement": "For every LambdaCDM with 0 < Omega_m0 <= 1 and h > 0 and every z > -1: Omega_m(z) + Omega_l(z) = 1 with both in range and equal to the parameters at z = 0; E(0) = 1, H(z)^2 = H0^2 (Omega_m0 (1+z)^3 + 1 - Omega_m0), E and H strictly increase and Omega_m does not decrease with z. z_to_a and a_to_z are inverse and order reversing. For every unit system, constants in internal units times the unit are the SI constants, and the derived units (velocity, density, gravity, Hubble) are consistent; in cosmology units (Mpc/h, Gyr/h, 1e10 Msun/h) G and c do not depend on h, and the literal for H0 is 100 km/s/Mpc to 1e-14. Friedmann's equation H^2 = 8 pi G rho_crit / 3 holds in SI; rho_crit Omega_m is the mean density. r_to_m and m_to_r are inverse and strictly increasing on non-negative values. (Finding: the constant kpc_to_m is a million times a kiloparsec.)", "quantifier": "all cosmological parameters in the usual range, all redshifts, masses, radii and unit systems (exact real arithmetic)", "why_tests_cant": "ranges over all real parameters and redshifts", "anchors": ["src/pyhipp/astro/cosmology/flat_lambda_cdm_nr.py", "src/pyhipp/astro/quantity/unit_system.py"]}
{"id": "C56", "title": "Growth, transfer functions, power spectrum and variance", "statement": "growth_fac is Carroll, Press & Turner's (1992) formula normalised to today, the transfer functions are those published by Eisenstein & Hu (1998, with baryons at 2.728 K; 1999, for any redshift, neutrinos, flat or open universe): every coefficient agrees. growth_fac(0) = 1, growth_fac > 0 for z > -1 and equals 1/(1+z) when Omega_m0 = 1; delta_crit * growth_fac = 1.686. window_func stays in [-1, 1], is the Fourier transform of the top hat for kr >= 1e-5 and differs from 1 by at most (kr)^2/10. For every cosmology with 1/1000 <= Omega_m0 <= 1, 0 <= Omega_b0 <= Omega_m0/2 and 0 < h <= 2 (and Omega_b0 > 0 with baryon effect) the transfer functions are continuous for k > 0 and do not vanish on large scales, so sigma_sqr(8, 0) = sigma_8^2 exactly and sigma_sqr > 0; P is proportional to k^n T(k)^2 and Delta^2 = k^3 P/(2 pi^2); sigma^2 is the integral of Delta^2 W^2 d ln k over [e^-23, e^23]; sigma^2, Delta^2 and P scale with growth_fac(z)^2 and sigma_8^2 and do not depend on the transfer function's amplitude; sigma_sqr_at_mass uses the radius holding that mass. Refused arguments raise ValueError and leave the EH98 object unchanged; EH98's cold part is in (0, 1), even in k and 1 at k = 0. (Findings: with_baryon_effect needs Omega_b0 > 0, otherwise ValueError; without it Omega_b0 = 0 is silently replaced by 1e-5 and 1e-5 of hot dark matter is always added.)", "quantifier": "all cosmological parameters in the stated range, all wave numbers, radii, masses and redshifts (exact real arithmetic and exact integral)", "why_tests_cant": "ranges over all real parameters; the normalisation depends on integrability and on the integral never being zero", "anchors": ["src/pyhipp/astro/cosmology/power_spectrum.py:_PowerSpectrumFlatLambdaCDMNR", "src/pyhipp/astro/cosmology/power_spectrum.py:_TransferFunctionEH98", "src/pyhipp/astro/cosmology/power_spectrum.py:_TransferFunctionEH99", "src/pyhipp/astro/cosmology/power_spectrum.py:_GrowthFactorCarroll92"]}
{"id": "C57", "title": "Caches: one computation per key, failures leave no entry", "statement": "For objects with get_cache_or(key, fallback)/put_cache(key, value) (and the two-level variant with a subkey): after any program of requests and puts, fallbacks included that use the same cache recursively, the entry of a key is the value most recently computed or put for it; every request answered without calling a fallback returns exactly that value; a fallback starts only when there is no entry. Unless a fallback asks for its own key, at most one call per key does not end in an exception. An exception reaches the caller and leaves no entry for that key. The two-level cache answers exactly like a one-level cache over pairs. Predefined cosmologies: all accesses to one name give the same object, distinct names distinct objects, and a name that cannot be loaded raises every time without disturbing others. (Findings: a self-requesting fallback runs twice; after a failure the two-level cache contains an empty group.)", "quantifier": "all programs of requests, puts and nested fallbacks, all keys, values and exceptions, all initial caches", "why_tests_cant": "histories and nesting depth of requests are unbounded; the property speaks about every interleaving of failures and successes", "anchors": ["src/pyhipp/core/abc.py:HasCache.get_cache_or", "src/pyhipp/core/abc.py:HasMultiCache.get_cache_or", "src/pyhipp/astro/cosmology/model.py:PredefinedCosmologies"]}
{"id": "C58", "title": "Parameter lists: access by name and by position", "statement": "For a ParamList built from any parameters and after any history of assignments pl[i] = p: a name denotes the parameter now standing at the position most recently given to a parameter of that name, other names raise KeyError; integers (negative from the end) denote the parameter at that position, out of range raises IndexError; the length never changes. If names are distinct and assignments keep the name at their position, access by name and by position agree. The representation lists name and value of each parameter in order. set_values gives every parameter exactly its value, in order; a wrong number of values changes nothing; an interrupted update has changed exactly a prefix. (Findings: replacing a parameter by one with another name leaves the old name pointing at the new parameter; an integer-valued Param truncates values set later; numpy integers as subscripts raise KeyError.)", "quantifier": "all parameter lists, all histories of assignments and updates", "why_tests_cant": "histories of assignments are unbounded and names can collide in unboundedly many ways", "anchors": ["src/pyhipp/astro/cosmology/param.py:ParamList", "src/pyhipp/astro/cosmology/param.py:Param"]}
{"id": "C59", "title": "Artist formatters, frames and runtime configuration keep exactly what was last set", "statement": "After any history of Axes.c / fmt_line / fmt_marker / fmt_errorbar / fmt_fill / fmt_text calls, failed ones included, every property has the value last given to it (None in c() changes nothing), its default if none was given, and no property appears or disappears; an unknown name raises KeyError with the preceding settings in force; fmt[k] = v sets that property and no other, KeyError if unknown. The keywords plot, scatter, errorbar, fill_between, stairs, hist and text hand to matplotlib are those properties, the caller's own keywords winning. After any history of lim/label/scale/label_outer calls matplotlib was last told, for each axis, the value last given; every frame call repeats the stored settings. errorfill draws the band y-err..y+err. RuntimeConfig methods never change the class defaults; set_global sets exactly the configured parameters, in order, up to the first unknown one; style sheets are applied in order up to the first unknown name (KeyError). (Findings: fmt_marker without style resets the style; errorfill without yerr always raises TypeError; leg(loc='center left'/'center right') is turned into an invalid location; a bad frame property makes all later frame calls fail; tick_params that is not a map is an UnboundLocalError; a style sheet replaces whole sections; writing into a section of one configuration changes the class default.)", "quantifier": "all histories of formatting calls with arbitrary names and values, all colour conversions, all rc tables", "why_tests_cant": "histories are unbounded; the claim is about every interleaving of successful and failing calls", "anchors": ["src/pyhipp/plot/artist_formatter.py:ArtistFormatter", "src/pyhipp/plot/artist_formatter.py:FrameFormatter", "src/pyhipp/plot/axes.py:Axes", "src/pyhipp/plot/color.py:Color", "src/pyhipp/plot/runtime_config.py:RuntimeConfig"]}
{"id": "C60", "title": "Subplot layout and axes arrays", "statement": "subplots(n=k) makes one row of k panels, n=(r, c) r rows of c; scalars for share and space apply to both directions; extent=(lo, hi) puts left and bottom at lo, right and top at hi, four values are top, right, bottom, left; margins are measured from the nearest edge and override the extent; the result is one Axes exactly if there is one panel, else an array with every panel once in row-major order, one-dimensional for one row or column. Without figsize every panel gets subsize; the layout is 'tight' exactly if neither layout nor space was given. A method called on an AxesArray of any shape reaches every Axes exactly once in row-major order; if one raises, exactly those before it (and it) have been changed. Arguments of the accepted shapes always give a layout. Transposing is an involution. (Finding: a scalar extent never works - left equals right.)", "quantifier": "all numbers of rows and columns, all margins/extents, array shapes of any dimension, all methods and Axes states", "why_tests_cant": "shapes, states and failure positions are unbounded", "anchors": ["src/pyhipp/plot/artist_formatter.py:SubplotsFormatter.get_subplots_kw", "src/pyhipp/plot/figure.py:FigureBase.subplots", "src/pyhipp/plot/shortcut.py:subplots", "src/pyhipp/plot/axes.py:AxesArray"]}
{"id": "C61", "title": "Sexagesimal coordinates", "statement": "For every non-negative angle (every angle has a sexagesimal notation), dms_to_deg of its degrees-minutes-seconds notation, given as three numbers or as a colon-separated text, is that angle, and hms_to_deg is fifteen times it; anything but three fields is a ValueError and a field that is not a number raises what float() raises. The conversion is linear in the three numbers. (Findings: for a negative angle written with the sign on the first field the result is too large by twice the minutes and seconds; angles between -1 and 0 degrees lose their sign.)", "quantifier": "all rational angles and notations, all texts", "why_tests_cant": "infinitely many angles and texts; the sign error only shows for a sub-range", "anchors": ["src/pyhipp/astro/coords/cvt.py:dms_to_deg", "src/pyhipp/astro/coords/cvt.py:hms_to_deg"]}
{"id": "C62", "title": "Kernels and ball volumes", "statement": "Kernels take values in [0,1] and never increase with distance; the Gaussian is 1 only at the centre, even, strictly decreasing and a function of distance/width; the top hat is the indicator of d < radius. Tophat.volume in n dimensions is the volume of the n-ball of the smaller radius (base cases, slicing integral for n+2, closed forms, r^n scaling, monotone), AssertionError for negative n; max_radius=None raises TypeError (finding). predefined.create resolves names, numbers, pairs and instances, KeyError/TypeError otherwise.", "quantifier": "all distances, radii, widths and dimensions; all specifications", "why_tests_cant": "recurrences over the dimension and limits in the distance cannot be enumerated", "anchors": ["src/pyhipp/stats/kernel.py:Gaussian", "src/pyhipp/stats/kernel.py:Tophat", "src/pyhipp/stats/kernel.py:_Predefined.create"]}
{"id": "C63", "title": "Histogram density estimate", "statement": "DensityEstimation.by_histogram: each fitted cell is the total weight of the samples it contains (last edge of the last cell included); with density=True it is that divided by the cell volume and the grand total, and the cell values times the cell volumes add up to 1 whenever some weight fell into the grid. Evaluating at a point strictly inside a cell (or on its lower edges) returns that cell's value, outside the grid returns the fill value. Findings: a query exactly on the last edge gets the fill value although samples there are counted; an axis with a single location raises IndexError; surplus query coordinates are ignored; mismatched dimensions/weights raise.", "quantifier": "all grids, samples, weights and query points", "why_tests_cant": "infinitely many grids and samples; conservation is a statement over all of them", "anchors": ["src/pyhipp/stats/density_estimation.py:_HistogramDensityEstimation", "src/pyhipp/stats/density_estimation.py:DensityEstimation.by_histogram"]}
{"id": "C64", "title": "Masked fraction of the nearest neighbours", "statement": "masked_fraction_by_knn returns, per query, the (weighted) fraction of the accepted nearest neighbours whose mask is set, and a value in [0,1] for non-negative weights; queries with fewer than min_count accepted neighbours are flagged invalid (without max_dx one flag stands for all queries). Finding: below the 1e-10 floor on the weight sum the result is not the fraction.", "quantifier": "all training sets, masks, weights, query points, k", "why_tests_cant": "the fraction must be a ratio of sums over exactly the neighbours asked for, for every point set, mask, weight and k", "anchors": ["src/pyhipp/stats/regression.py:masked_fraction_by_knn"]}
{"id": "C65", "title": "Array wrapper: sorting, argsort and constructors", "statement": "Array.sorted(axis) keeps the shape and sorts every lane along the axis (each lane a permutation of the original one), sorted() flattens and sorts; an axis that does not exist is a ValueError. argsort(axis) gives for every lane a permutation of its positions which sorts it. zeros/ones give an array of the requested shape holding that value everywhere; negative extents raise ValueError; len is the first extent; flattening keeps the elements in order. (Findings: argsort() with the default axis never returns - the constructor arguments are swapped; IndexArray can never be built; zeros/ones of the index classes raise TypeError.)", "quantifier": "all arrays of any number of dimensions and extents, all axes including negative and out-of-range ones", "why_tests_cant": "sorting along an axis must permute each line separately for arrays of any dimension and every axis, negative ones included", "anchors": ["src/pyhipp/core/arrays/array.py:Array", "src/pyhipp/core/arrays/array.py:IndexArray"]}
{"id": "C66", "title": "Polar frame", "statement": "Polar unit vectors have length one and the stated components; off the polar axis rt_to_cart is an orthonormal, right-handed change of frame that preserves scalar products. (Findings: on the polar axis the tangential components are lost; positions given as whole numbers are always refused with a TypeError.)", "quantifier": "all real angles and vectors, off and on the polar axis", "why_tests_cant": "ranges over all real angles; the degenerate directions are isolated points", "anchors": ["src/pyhipp/core/dataproc/frame.py"]}
{"id": "C67", "title": "Dict.combine_dicts and Array.as_array", "statement": "Combining mappings gives every key the value of the last mapping that has it, keyword items override all, None arguments are skipped, and no key appears twice. Array.as_array keeps the values and None of each argument and shares memory with it only when no copy was asked for.", "quantifier": "all lists of dictionaries, keyword items and None; all arrays and copy flags", "why_tests_cant": "any number of dictionaries of any size; sharing of memory depends on the history of writes", "anchors": ["src/pyhipp/core/dataproc/data_structs.py"]}
{"id": "C68", "title": "Random noise", "statement": "RandomNoise.add_to returns one noisy copy of the sample per repeat (a plain row for n_repeats = 1), each value being x + noise or x*10**noise for the drawn noise; a zero sigma changes nothing; logarithmic noise never changes the sign and never creates or removes zeros; any other distribution name raises AssertionError.", "quantifier": "all samples, all generator outcomes, all repeat counts", "why_tests_cant": "the noise must leave shape and original alone for every outcome of the generator, which a test fixes by its seed", "anchors": ["src/pyhipp/stats/sampling.py:RandomNoise"]}
{"id": "C69", "title": "Neighbour density estimates", "statement": "DensityEstimation.by_local_kernel / by_knn: the estimate at a query is the total normalised weight of exactly the training points within the radius (resp. the k nearest, optionally cut at max_dx) divided by the volume of that ball, independent of any common scaling of the weights; the reported neighbour counts and radii are those of that set. Findings: an isotropic kernel has no effect on an unweighted estimate; the default radius is computed from the query points and is 0 for a single query.", "quantifier": "all training sets, weights, kernels, radii, k and query points, any metric", "why_tests_cant": "normalisation and the role of each neighbour must hold for every metric, kernel and point set", "anchors": ["src/pyhipp/stats/density_estimation.py:_LocalKernelDensityEstimation", "src/pyhipp/stats/density_estimation.py:_KnnDensityEstimation"]}
{"id": "C70", "title": "Neighbour regression", "statement": "Regression.by_knn / by_local_kernel return, per query and per requested reduction, that reduction of the y values (and weights times kernel) of exactly the accepted neighbours, the fill value when there are none; a mean with non-negative weights lies between the extremes of the neighbours' y. Reduction specs (object, name, (name, kwargs), list) all denote the same reduction. Tuples that are not (name, kwargs) are refused (ValueError, TypeError, or KeyError for an unknown name). Findings: a tuple of two reductions is a TypeError; a generator of reductions is consumed after the first query.", "quantifier": "all training sets, y, weights, kernels, k/radius, reductions and query points", "why_tests_cant": "every reduction must see exactly the neighbours of its own query point, for any number of reductions, queries and k", "anchors": ["src/pyhipp/stats/regression.py:_KnnRegression", "src/pyhipp/stats/regression.py:_LocalKernelRegression", "src/pyhipp/stats/reduction.py:Reduce"]}
{"id": "C71", "title": "Binned volume densities count every drawn sample once", "statement": "For any sample, weights, volume, binning (number of bins or explicit edges, optional sub-bins) and any bootstrap draw, BinnedVolumeDensity.from_raw reports for every window of sub-bins the centre, the width and a density whose product with volume and width is exactly the total weight of the drawn samples inside that window; all samples drawn lie in the half-open range [lo, hi); without sub-bins every drawn sample is counted exactly once, so the densities integrate to the total weight. lg_y is the decimal logarithm of the density, of the pad where the density is below it. (Finding: with the default range the range ends at the maximum and is half-open, so the largest sample is dropped however often it occurs, and a constant sample leaves nothing.)", "quantifier": "all samples, weights, volumes, bin specifications, draws of any length", "why_tests_cant": "samples, draws and bin edges are unbounded; boundary membership depends on every value", "anchors": ["src/pyhipp/astro/stats/lss.py:BinnedVolumeDensity", "src/pyhipp/stats/binning.py:Hist1D.from_overlapped_bins"]}
{"id": "C72", "title": "Densities on the plane, percentile levels and hidden points", "statement": "Histogram2D.fit: for all samples, weights and bins the density of a cell times its area is the fraction of the in-range weight lying in that cell, and the densities integrate to one; n bins over a range are equally wide (a range of no width is widened by 1/2 on both sides), and fewer than one bin, a reversed range, unsorted edges or columns that do not pair up raise ValueError. on() returns the density of the cell (edge i, edge i+1] holding the point, and outside 0 or the nearest cell's density. on_meshgrid puts the value at (x_i, y_j) in row j column i ('xy') or row i column j ('ij'); the mesh Scatter2D draws shows for every cell its own fitted density on its own edges. z_level_at_percentile(p) is a value such that the cells at or above it hold at least p of the mass and those strictly above at most p, and it does not increase with p. KNearestNeighbor2D is k (or the weight of the k nearest) over pi r_k^2. (Findings: fit closes cells on the left, on() on the right, so samples on interior edges are read from the wrong cell and with the default range the smallest x or y are read as density 0 and are never hidden; contour raises ValueError unless percentiles are strictly descending with distinct levels, and always when cmap is given without clearing colors.)", "quantifier": "all samples, weights, edges, query points, percentiles; any number of cells", "why_tests_cant": "ranges over all reals and all data sets; the boundary behaviour depends on every value", "anchors": ["src/pyhipp/plot/two_dim.py:Histogram2D", "src/pyhipp/plot/two_dim.py:DensityEstimator2D.on_meshgrid", "src/pyhipp/plot/two_dim.py:Scatter2D", "src/pyhipp/plot/two_dim.py:KNearestNeighbor2D"]}
{"id": "C73", "title": "Secondary axes and filled bands", "statement": "add_secondary_axis puts an axis of the right kind at 'top'/'bottom' (x) or 'left'/'right' (y), carrying exactly the label and ticks asked for; any other location raises ValueError before anything is drawn; the parent's ticks on that side are switched off when asked and nothing else of the parent changes. The lg(1+z) and z directions are inverse and increasing. add_secondary_axis_interp of strictly monotone pairs (ascending or descending) gives two functions that pass through the pairs and undo each other at every real position, also beyond the data. Unequal lengths, fewer than two pairs or repeated positions are a ValueError. fill_between_xy draws the polygon along curve 1 and back along curve 2. (Findings: add_secondary_identical_axis always raises TypeError; fill_between_xy compares only total lengths, so mismatched curves are accepted.)", "quantifier": "all locations, labels, ticks and formatter states; all strictly monotone tables of any length and all real positions; all curves", "why_tests_cant": "ranges over all tables and positions (exact real arithmetic), all formatter states and all curve lengths", "anchors": ["src/pyhipp/astro/plot/shortcuts.py:Axes"]}
{"id": "C74", "title": "Virial relations, NFW concentrations, halo mass function keywords", "statement": "For every physical background, mass, overdensity f > 0 and z > -1: the virial radius encloses the mass at f times the background (mean or critical) density, grows with mass, comoving = (1+z) physical, the virial velocity is the circular velocity at the physical radius, and the dynamical time depends on the density only; the comoving mean-density radius does not change with redshift when matter only dilutes. NFW: mu(0) = 0 and mu increases, c_to_v_max2vir increases from c = 2.1626; v_max2vir_to_c (any table size >= 2) is exact at the nodes, keeps every concentration in its interval between nodes (so a concentration read back is off by at most max(1, 899/(n-1))), raises ValueError outside the table. mass_function hands hmf the four range keywords, then the caller's, then the overdensity definition; an unknown mass_def raises ValueError; with the default dictionary no call influences a later one. (Findings: mass_def='custom' writes into the caller's dictionary; the keywords never mention the model's own cosmology.)", "quantifier": "all real masses, densities, redshifts, concentrations; all table sizes; all keyword dictionaries and call histories", "why_tests_cant": "ranges over all real arguments and all call histories on shared dictionaries", "anchors": ["src/pyhipp/astro/cosmology/halo_theory.py:HaloTheory", "src/pyhipp/astro/cosmology/halo_theory.py:NFWProfileCalculator", "src/pyhipp/astro/cosmology/halo_theory.py:VirialProperties"]}
{"id": "C75", "title": "The LambdaCDM model and its unit system", "statement": "In every unit system (any positive length, time and mass unit) numbers computed with the system's constants times its units are the SI values, and in the cosmological system the constants do not depend on h. A model can be built exactly when hubble, omega_m0, t_cmb and omega_b0 are given and 0 <= omega_b0 <= omega_m0 (KeyError, ValueError otherwise); get returns exactly the given parameters; a configuration file must be named *.json and hold parameters, name and data_dir, its other entries are the meta data. Matter, dark energy and baryon fractions, Hubble rate and densities obey Friedmann's equation at every z > -1; matter dilutes as (1+z)^3. Comoving, luminosity and angular distances are the integrals they are named after, are increasing (comoving; luminosity for z >= 0) and h-free in Mpc/h; distance-to-redshift undoes redshift-to-distance; look-back time and age are complementary and monotone. (Findings: the omega_l0 parameter is not omega_l(0) when T_cmb > 0; from_astropy_model drops Neff; comoving distances below 1e-4 Mpc/h all map to the redshift of 1e-4; writing a parameter later changes some derived values and not others.)", "quantifier": "all positive unit choices, all parameter dictionaries, all sane parameter values and all real redshifts/distances/times", "why_tests_cant": "ranges over all real redshifts and parameters; the distances are integrals whose inverse relation cannot be sampled exhaustively", "anchors": ["src/pyhipp/astro/cosmology/model.py:LambdaCDM", "src/pyhipp/astro/quantity/unit_system.py:UnitSystem"]}
{"id": "C76", "title": "Random generators: seeding, sharing, points on the circle and sphere", "statement": "Rng(int) and Rng(None) start a generator of their own, Rng(Generator) and Rng(Rng) share one (negative ints: ValueError; anything else, numpy integers included: AssertionError). In any program with any number of objects every generator behaves as if its calls had been made by one owner alone, in their order; two generators made from the same integer answer the same calls with the same numbers. uniform is in [low, high) and fills the asked shape in order; lg_normal is 10 to the normal numbers. uniform_sphere gives unit vectors whose z is the uniform cosine in [-1, 1) at the drawn azimuth, theta in (0, pi], phi in [0, 2 pi), the same numbers stacked or not and from the compiled class; every direction but the north pole is reached. Drawing a + b uniform or normal numbers at once equals drawing a and then b. (Finding: this is not so for points on the sphere, whose batches draw all cosines first.)", "quantifier": "all sources of bits, all seeds, all programs over any number of objects, all shapes and sizes", "why_tests_cant": "ranges over all interleavings of calls on shared generators and all values a source may give", "anchors": ["src/pyhipp/stats/random.py:Rng", "src/pyhipp/stats/random.py:_Rng"]}
{"id": "C77", "title": "Simple representations, names and logging", "statement": "to_simple_repr of a HasDictRepr is a dictionary with 'type' first (if enabled) and the listed attributes in order, nested objects represented themselves; of a HasListRepr a tuple in the listed order; of a DataDict a dictionary with its keys in order. It fails only with AttributeError, exactly when some listed attribute is missing at some depth. Log output appears exactly for the calls made while verbose, in order, as '[name][time] message'; a missing name is the class name; by default the arguments are run together and a newline ends the message. (Finding: for Standardize and BinaryFile the listed names do not exist, so repr and print always raise AttributeError; all other classes of the library are representable.)", "quantifier": "all classes, attribute trees of any depth, all histories of verbose switches and log calls", "why_tests_cant": "ranges over all nested object trees and all histories", "anchors": ["src/pyhipp/core/abc.py:HasDictRepr", "src/pyhipp/core/abc.py:HasListRepr", "src/pyhipp/core/abc.py:HasLog", "src/pyhipp/core/containers/data_dict.py:DataDict.to_simple_repr"]}
{"id": "C78", "title": "Whole objects in HDF5 files; text tables; deleting and selecting members", "statement": "An object written with to_file into an existing empty group of a file is read back equal by from_file (the columns of tables in it sorted by name, C85); the rest of that file and all other files keep what they had. Keywords on reading replace fields (others are unchanged; a keyword that is no field is a TypeError; every declared field must still be in the file). A text table is stored exactly as the dictionary of its columns. del group[name] removes that name and nothing else; a missing name is KeyError and changes nothing; delete-then-create replaces. Indexing a group with a name gives the member, with a list of names the dictionary of members in that order. (Findings: to_file with a missing group raises KeyError only after the file was created or truncated, so that repeating the call raises FileExistsError; the text-to-file shortcut ignores its dump flag and always uses 'ac'; Group.datasets.what and .ls always raise TypeError.)", "quantifier": "all file systems, files, groups, declared object types of any depth, flags, columns and keyword sets", "why_tests_cant": "ranges over all objects, all file contents and flags", "anchors": ["src/pyhipp/io/h5/abc.py:GroupLike", "src/pyhipp/io/h5/shortcuts.py:txt_to_h5", "src/pyhipp/io/h5/named_objs.py:Group.__delitem__", "src/pyhipp/io/h5/named_objs.py:Group.__getitem__", "src/pyhipp/io/h5/named_objs.py:DatasetManager.__getattr__"]}
{"id": "C79", "title": "Density fields, interpolators and classifiers in HDF5 files", "statement": "A density field dumped to a group loads back equal and nothing else in the file changes. Depositing the particles in portions, dumping each field, joining the dumps and loading the result gives a field that interpolates everywhere to the values of the one field in which all particles were deposited. A missing dataset is KeyError, an array that is not a cube of the stored number of grids an AssertionError. An interpolator made from a file of overdensity returns 1 + the interpolated overdensity; a classifier made from a file is the classifier of the stored eigenvalues, cell by cell. (Findings: on joining, sizes are only compared by numpy broadcasting, so that a one-cell field is silently added to every cell, and box sizes are never compared.)", "quantifier": "all grids, box sizes, particle sets, partitions into portions, files and groups", "why_tests_cant": "ranges over all partitions of all particle sets and all file contents", "anchors": ["src/pyhipp/field/cubic_box/mass_assignment.py:DensityField", "src/pyhipp/field/cubic_box/field.py:Field", "src/pyhipp/field/cubic_box/cosmic_web.py:FieldInterpolator", "src/pyhipp/field/cubic_box/cosmic_web.py:TidalClassifier"]}
{"id": "C80", "title": "Tabulated halo quantities and the interpolator of lg sigma", "statement": "lg_sigma, dlg_sigma_dlg_m and lg_delta_c are the linear interpolations of their tables in the data file, exact at the tabulated points; a query outside the table's range, alone or in an array, is ValueError; the order of the rows does not matter. A missing file is FileNotFoundError, any missing table KeyError for every quantity, unequal columns, fewer than two rows or a repeated abscissa ValueError. In any history of calls, those before the first one that can read the file fail as reading then fails, and all later ones are answered from the tables read at that moment, whatever happens to the file. The shown ranges are (first, last) and (last - first)/(rows - 1). The lg sigma interpolator of the power spectrum is exact at its equally spaced nodes, linear between them (hence between neighbouring values) and constant outside; at the mass of the 8 Mpc/h sphere it gives lg sigma_8; fewer than two nodes or an empty range is AssertionError. (Finding: a reversed range is accepted and returns at its first end the value of the other.)", "quantifier": "all tables of any length, all queries, all call histories with a changing file, all cosmologies, ranges and node counts", "why_tests_cant": "ranges over all tables, all real queries and all histories", "anchors": ["src/pyhipp/astro/cosmology/halo_theory.py:HaloTheory.lg_sigma", "src/pyhipp/astro/cosmology/halo_theory.py:HaloTheory", "src/pyhipp/astro/cosmology/power_spectrum.py:interp_lg_sigma_at_lg_mass"]}
{"id": "C81", "title": "Tables as one matrix and as lists", "statement": "For a table of k vectors of length n, col_stacked() is the n x k matrix whose element (i, j) is entry i of column j, and row_stacked() its transpose. With columns of more dimensions col_stacked joins the rows of the columns, row by row, and requires equal numbers of rows. The empty table and vectors of different lengths are ValueError. A table made from to_dict_of_list() of a table has the same names, order, elements and shapes, except that dimensions after a zero are lost. (Finding: row_stacked takes a vector as one row even beside columns with one row per object, so a mixed table is a ValueError unless there are as many objects as components, when objects and components are silently mixed.)", "quantifier": "all tables with any number of columns of any dimension and size", "why_tests_cant": "ranges over all numbers and shapes of columns", "anchors": ["src/pyhipp/core/containers/data_table.py:DataTable.col_stacked", "src/pyhipp/core/containers/data_table.py:DataTable.row_stacked", "src/pyhipp/core/containers/data_table.py:DataTable.to_dict_of_list"]}
{"id": "C82", "title": "Wrapped axes, colour bars and colour sequences", "statement": "Building an AxesArray (SubFigureArray) keeps existing Axes as they are, gives every matplotlib axes a new Axes with nothing drawn, and changes no existing Axes; indexing, slicing, iterating, .flat, .T, to_list and AxesArray(array) give the array's own Axes at the expected positions and make no new ones (so settings made through one view hold in all), while wrapping the same matplotlib axes twice gives unrelated Axes. After any history of drawing calls on any number of Axes, failed ones included, last_draw of each is what matplotlib last returned to it (for errorfill the band), IndexError if nothing. colorbar hands matplotlib its own objects: for an Axes, an AxesArray (row-major) or an iterable of Axes the axes behind them; the bar becomes the figure's last_draw, and nothing changes if matplotlib raises. subplots on an array of sub-figures of any shape calls subplots once per sub-figure in row-major order and keeps the positions. ColorSeq keeps order; from_cmap(cmap, n) gives n colours at equally spaced levels, the ends of the map first and last; predefined knows ten names, KeyError otherwise. figure_kw and the caller's gridspec keywords win over the computed ones. (Findings: an AxesArray inside a list, or as cax, is handed to matplotlib unconverted; levels written as integers are table indices, so [0, 1] are the first two colours of the map, not its ends.)", "quantifier": "all arrays of any shape, all element lists, keys, histories of drawing calls with any matplotlib answers, all colour maps, level lists and counts, all caller keywords", "why_tests_cant": "tests look at a few panels; object identity across every view and the last drawing after every history, including failing calls, are statements about all arrays and histories", "anchors": ["src/pyhipp/plot/axes.py: Axes.last_draw, AxesArray", "src/pyhipp/plot/figure.py: FigureBase.colorbar, SubFigureArray", "src/pyhipp/plot/color.py: ColorSeq, Colormap", "src/pyhipp/plot/shortcut.py: figure, subplots, subfigures"]}
{"id": "C83", "title": "Meshes, neighbour search and mass assignment in double precision", "statement": "In IEEE double precision the periodic meshes keep what they promise up to stated rounding margins. Mesh.x_to_xi returns an index in [0, n_grids) belonging to a grid point at most half a cell away, up to 2^-51 of the coordinate plus the cell (so the nearest one unless ambiguous by that margin); the computed grid points i*l_grid get index i. The mesh-based neighbour query returns every stored point within r of the centre exactly, with no rounding loss, along axes where the box is not wrapped, and up to 2^-50 of the magnitudes along the others, and nothing farther than r plus a cell plus such a margin. Cloud-in-cell weights lie in [0,1], sum to exactly 1 and have the particle's position as centre of mass up to rounding; the eight deposits of a particle add to its weight within 2^-51; adding N particles never lowers a cell and changes the total by the total weight within N*2^-48 of the new total. Finding: without the margins both fail: x_to_xi in a box of 4 unit cells sends 0.49999999999999994 to grid point 1, and the documented guarantee of query_points ('all points within the distance are guaranteed to be included') fails in a unit box with 10 cells a side, where the point 0.6 is exactly 0.4 from the origin through the boundary and the query of radius 0.4 around the origin misses it.", "quantifier": "all meshes of 1..2^53 cells with box sides 2^-900..2^900, all finite positions within 2^52..2^60 cells, all radii, all point sets and argsort orders, all weights 2^-800..2^900, up to 2^48 particles", "why_tests_cant": "Rounding errors depend on every bit of the inputs; a test compares with a tolerance on a few positions, while the exactness without wrap-around, the failure at single inputs and the error bounds are statements about all doubles.", "anchors": ["src/pyhipp/field/cubic_box/mesh.py: _Mesh.x_to_xi, x_to_xi_nd", "src/pyhipp/field/neighbor/kd_mesh.py: _PE3Mesh, _PE3.query_points, _PE3_from_meshing_points", "src/pyhipp/field/cubic_box/mass_assignment.py: _LinearShapeFn.weights_at, _Linear.add_1, _Linear.add"]}
{"id": "C84", "title": "Equal-space bins in double precision", "statement": "In IEEE double precision EqualSpaceBins((b, e), n).locate returns an index in [-1, n] for every sample, NaN and infinities included; the index never decreases as the sample grows; a sample at or above b is never reported below; a sample below b gives -1 unless it is within 2^-1074 steps of b; only samples within one part in 2^50 of an edge can land on its wrong side, so the index is at most one off the exact one, and above e it is n or n-1. x_edges are n+1 finite never decreasing numbers from exactly b to exactly e, each within 2^-50 (|b|+|e|) of its exact place. locate_nearest returns an edge number whose edge no other edge beats by more than 2^-51 of the distance plus 2^-46 (|b|+|e|). The constructor accepts exactly b < e (no NaN) and n > 0. Finding: the documented 'x >= x_edges[-1] returns n_bins' fails: EqualSpaceBins((0., 1.), 93).locate(1.) is 92. Finding: EqualSpaceBins((0., 4.), 2).locate(-5e-324) is 0 although the sample is below the range. Finding: a sample 2^64 steps above the range is located at -1, and with an infinite bound (which is accepted) every sample is located at 0 (e = inf) or -1 (b = -inf).", "quantifier": "all finite bounds up to 2^900 at least 2^-900 apart, all n up to 2^49, all doubles as samples (margins: within 2^60 steps of the range)", "why_tests_cant": "Whether a sample at an edge lands left or right of it depends on the rounding of four operations on that very input; the failures are isolated points among 2^64 samples and infinitely many bins, and monotonicity and the margins are statements about all of them.", "anchors": ["src/pyhipp/stats/binning.py: EqualSpaceBins.__init__, EqualSpaceBins.locate, EqualSpaceBins.x_edges", "src/pyhipp/stats/binning.py: Bins.locate_bound, Bins.locate_nearest"]}
{"id": "C85", "title": "Tables in HDF5 files", "statement": "A DataTable whose columns are storable arrays under distinct plain names, written into any empty group and read back as a DataTable, has the same columns with the same values and nothing else; it is equal if its columns were in name order. Every member of the group read is a column (or, for a subgroup, something that is no column of the table written); a dataset read as a table is an AssertionError; a column of no storable type is refused before anything is written. Finding: the order of the columns is lost: they come back sorted by name (so positional use, e.g. col_stacked, differs after a round trip). Finding: a column whose name contains a slash is not a column of the table read back. Finding: writing a table over an older one with flag 'ac' leaves the old table's other columns in place.", "quantifier": "all tables, files, groups and creation flags", "why_tests_cant": "ranges over all tables and all file contents; tests with columns already in alphabetical order (or compared by name) never see the reordering", "anchors": ["src/pyhipp/core/containers/data_table.py:DataTable._to_h5_data", "src/pyhipp/core/containers/data_table.py:DataTable._from_h5_data", "src/pyhipp/io/h5/abc.py:from_h5_data", "src/pyhipp/io/h5/named_objs.py:Group.dump"]}
{"id": "C86", "title": "Dataset managers as mappings; file handles", "statement": "group.datasets.items(), values() and keys() list exactly the datasets among the direct members, once each, in name order, with the values indexing gives; a member that does not resolve makes all three fail with KeyError. datasets.dump of storable values does exactly what Group.dump does with the same flat mapping, in every file and with every flag. A File handle: an unknown flag is a ValueError before anything is opened; after a with block the handle is closed, whatever happened in the block, and an exception of the block is passed on; closing twice is harmless; a handle without a file can be closed but not used; a closed handle raises ValueError. Finding: unlike Group.dump, datasets.dump does not look at the values first: what precedes a value that cannot be stored stays written.", "quantifier": "all files, groups, mappings, flags, and all blocks", "why_tests_cant": "ranges over all file contents (links included), all mappings and every way a block can end", "anchors": ["src/pyhipp/io/h5/named_objs.py:DatasetManager.items", "src/pyhipp/io/h5/named_objs.py:DatasetManager.dump", "src/pyhipp/io/h5/named_objs.py:File.close", "src/pyhipp/io/h5/named_objs.py:File.__exit__", "src/pyhipp/io/h5/named_objs.py:File.from_raw"]}
{"id": "C87", "title": "Regression entry points: shapes, refusals, one point at a time", "statement": "KernelRegressionND.by_knn / by_local_kernel: a 1-D x is one column, for training and for prediction; 0-D and 3-D or deeper arrays raise AssertionError; no points, another number of columns, or k larger than the training set raise ValueError (by_local_kernel looks at the reductions first). The result for a point is the reduction of the values of its own k nearest training points (on the line: smallest |x - q|), or of exactly those within max_dx, whatever the reduction, weights and kernel, so it does not depend on which other points are asked for. (Finding: when max_dx is not given by_local_kernel takes a tenth of the spread of the points asked for, so the result for a point does depend on the others: a point asked for alone gets radius 0 and usually the filling value.)", "quantifier": "all training sets, values, weights, kernels, k, radii, reductions, all pairs of query arrays containing the same point, any metric", "why_tests_cant": "independence of the other query points is a relation between two calls over unbounded inputs", "anchors": ["src/pyhipp/stats/regression.py:KernelRegressionND.by_knn", "src/pyhipp/stats/regression.py:KernelRegressionND.by_local_kernel", "src/pyhipp/stats/regression.py:_Regression._cvt_x_shape"]}
{"id": "C88", "title": "Compiled kernels stay inside their arrays", "statement": "The numba-compiled kernels, which check no bounds, never read or write outside their arrays, whatever the numbers are (NaN, infinities, unsorted abscissae, positions far outside the box): bisearch returns an index from -1 to n-1 of a non-empty array after at most ceil(log2 n) rounds, bisearch_nearest an index of the array; interpolation is safe with at least as many ordinates as abscissae, a Linear accepted with its default check can be evaluated and differentiated everywhere; Histogram.add deals with bin numbers of any size; DensityField.add after any history of adds, FieldInterpolator.value_at, TidalClassifier.web_type_at / lam_at, the construction and the queries of the kd mesh (n_grids > 0) and the loops over Fourier modes stay inside arrays of the mesh's size. Every element of an array they allocate without initialising it is written before it is returned. Wrong shapes end in an assertion. (Findings: with y shorter than x, bisearch_interp, bisearch_interp_2d and Linear(..., check=False) read and derivative() writes outside the arrays; bisearch_interp_fix_oob reads the first element of an empty x before the assertion that there is one; a kd mesh with n_grids = -1 passes every check and reads outside its offsets at the first query.)", "quantifier": "all arrays and shapes the checks admit, all numbers with any arithmetic and comparison, all histories of adds, all blocks of cells", "why_tests_cant": "an out-of-bounds access in compiled code usually does not show, and NaN, unsorted and far-out inputs are unbounded", "anchors": ["src/pyhipp/numerical/interpolate.py:bisearch", "src/pyhipp/numerical/interpolate.py:Linear", "src/pyhipp/stats/binning.py:Histogram.add", "src/pyhipp/field/cubic_box/mass_assignment.py:DensityField", "src/pyhipp/field/cubic_box/cosmic_web.py:FieldInterpolator", "src/pyhipp/field/cubic_box/cosmic_web.py:TidalClassifier", "src/pyhipp/field/neighbor/kd_mesh.py:_PE3_from_meshing_points", "src/pyhipp/field/cubic_box/smoothing.py:_smooth", "src/pyhipp/field/cubic_box/gravity.py:_solve_grav"]}
{"id": "C89", "title": "Sum, Mean and StdDev in double precision", "statement": "In IEEE double precision: in whatever order and grouping n finite numbers are added, with at most d additions on each, the sum is finite and within d*2^-52 of the sum of the magnitudes from the exact sum (as long as that is below 2^1022), so two orders differ by at most twice that; numpy's pairwise sum has d = 26 + log2(n/56), adding from left to right d = n. Whole numbers (or multiples of one power of two) with magnitudes adding up to at most 2^53 units are added exactly; a sum of non-negative numbers is at least each of them. With any such adding routine, masks and weights: Sum has this error (weights: one rounding more and the underflow of the products); Count is exact and an empty selection has the fill value as mean; Mean is within (d+1)*2^-52 of the mean magnitude from the exact mean and outside the range of the selected entries by no more than that; the weighted mean with non-negative weights is within (4d+4)*2^-52 of the largest magnitude; StdDev is finite, not negative and within (d+4)*2^-52 relatively plus twice the error of the mean. (Findings: sums depend on the order of the array, 1e16 + 1 - 1e16 against 1e16 - 1e16 + 1; the mean of 0.1, 0.1, 0.1 is larger than all three, and StdDev of that constant array is not 0.)", "quantifier": "all arrays of doubles, weights, masks, all orders and groupings of the additions, all lengths up to 2^53", "why_tests_cant": "rounding errors depend on every bit of every entry and on the order of additions, so tests can only see examples within a tolerance", "anchors": ["src/pyhipp/stats/reduction.py:Sum", "src/pyhipp/stats/reduction.py:Mean", "src/pyhipp/stats/reduction.py:StdDev", "src/pyhipp/stats/reduction.py:Count"]}
{"id": "C90", "title": "Standardize in double precision", "statement": "In IEEE double precision, with columns added in any order: Standardize stores for every column the mean and the standard deviation raised to the floor with the errors of C89, never less than the floor; forward gives (x - mean)/sd with a relative error of 2^-51 for every row; backward undoes forward within 2^-50 of |x| + |mean|, and forward undoes backward within 2^-50 of |z| + |mean|/sd; the order in each column is kept (not strictly) in both directions; a constant training column becomes at most twice the rounding error of its mean divided by the floor. (Findings: with the default floor 1e-10 a constant column is not standardized to zeros, three rows 107374182.4 all become -1, because the rounding errors of the mean and of the deviation are equal and exceed the floor; trained on 0 and 2, both 2^-60 and 2^-59 become -1 and come back as 0.)", "quantifier": "all training tables of up to 2^53 rows and numbers up to 2^480, all floors from 2^-480 to 2^480, all rows, all orders of addition", "why_tests_cant": "the error depends on every bit of every training entry and of the input; examples only show that particular roundings are harmless", "anchors": ["src/pyhipp/stats/preprocessing.py:Standardize", "src/pyhipp/stats/preprocessing.py:Preprocess.__call__"]}
{"id": "C91", "title": "Quantiles, medians and error bars in double precision", "statement": "In IEEE double precision, with numpy's interpolation formulas: an unweighted quantile at p in [0, 1] never overflows, lies between the least and the largest selected sample, never decreases when p grows, is the least sample at 0 and the largest at 1, does not depend on the order of the samples, and differs from the exact quantile by at most 2^-53 ((n + 3) gap + largest magnitude) + 2^-1073, gap being the widest distance of neighbouring samples; p outside [0, 1] is ValueError. The median of an odd number of samples is the middle one and the quantile at 1/2; of an even number it lies between the two middle ones, next to their mean and to the quantile at 1/2. Unweighted error bars at the named levels are never negative. With weights, the cumulative shares ascend and have a rounding error of at most 2^-51 times the number of additions plus one; the quantile interpolates the sorted samples over them, is never less than the least sample, exceeds the largest by rounding only (2^-49 of the spread, 2^-53 of the magnitude), grows with p between two neighbouring shares and falls back by no more than this rounding elsewhere. (Findings: the median of 0.3 and 3.9 is 2.1, their quantile at 1/2 2.0999999999999996; the quantile of 0, 1, ..., 22 at 15/22 is 14.999999999999998, not 15; a weighted quantile can exceed the largest sample and so fall when p grows, weights 3 and 4 of 4.0 and 8.6 give 8.600000000000001 at 1 - 2^-53 and 8.6 at 1; a weighted error bar can be negative, -41, 1.2, 1.2 with weights 2^-10, 0.15902343750000003, 0.84 give the lower error -2.9e-15.)", "quantifier": "all samples (up to 2^1022, with weights 2^400), masks, weights that are not negative, arrangements of equal samples, orders of adding the weights and probabilities", "why_tests_cant": "monotonicity and range must survive every pattern of rounding in five dependent operations; almost all examples behave, the exceptions are single bit patterns", "anchors": ["src/pyhipp/stats/reduction.py:Quantile", "src/pyhipp/stats/reduction.py:Median", "src/pyhipp/stats/reduction.py:Errorbar", "src/pyhipp/stats/reduction.py:Reduce._impl_1d"]}
{"id": "C92", "title": "Grids in double precision", "statement": "In IEEE double precision Grid1d accepts exactly the non-empty arrays in which no location is followed by a smaller one or by NaN, nor an infinity by itself; for finite values, exactly the non-empty ascending ones; others raise AssertionError. Cell centres, for magnitudes up to 2^1022, are one per cell, between the ends of their cells, one rounding off the exact middle, and ascend; a grid of one location has none (AssertionError). Locating x gives an index from -1 to the last, such that location i is at or below x exactly when i is at most the answer; a centre is located in its own cell when the ends are further apart than one part in 2^53 of their magnitudes. A slice start:stop:n*1j with start <= stop gives n ascending locations, the first at start exactly, each off its exact place by rounding only; going down, or n = 0, raises AssertionError. A slice start:stop:step with positive step gives ascending locations from start, their number exact unless (stop - start)/step is within one part in 2^51 of an integer, location i off start + i step by at most i (|start| + step)/2^50. from_data_range spans every axis from exactly the lower to exactly the upper quantile with n ascending locations (quantiles equal or at least 2^-900 apart), one axis for each pair of samples and size; exchanged probabilities raise AssertionError, probabilities outside [0, 1] ValueError. (Findings: Grid1d([nan]) is accepted; a sorted array ending in two infinities is rejected; near overflow centres are infinite or raise AssertionError; the centre of a cell between two neighbouring doubles is located in the next cell; GridMd.at[0.:1.:50j] ends below 1 and [0.:7.:26j] beyond 7; GridMd.at[1.:1.3:0.1] passes its stop; from_data_range of samples that differ by subnormal amounts, 0 and 3*2^-1074 with 6 locations, raises AssertionError; sizes or data without a partner are silently dropped.)", "quantifier": "all arrays of doubles (NaN and infinities included for acceptance), all location counts, starts, stops, steps, samples and probabilities within the stated magnitudes", "why_tests_cant": "the location formulas round differently for every start, stop and count; whether locations stay ordered and hit their ends depends on single bits that examples rarely reach", "anchors": ["src/pyhipp/core/dataproc/grid.py:Grid1d", "src/pyhipp/core/dataproc/grid.py:GridMd"]}
{"id": "C93", "title": "Sexagesimal angles and nearest images in double precision", "statement": "In IEEE double precision dms_to_deg and hms_to_deg, given three finite numbers (up to 2^900) or a colon-separated text of them, return a finite number within 2^-51 (resp. 15 * 2^-50) of the summed sizes of the contributions d, m/60, s/3600 of the exact angle; raising a field never lowers the result; without minutes and seconds the degrees are returned exactly, and 15 times the hours for whole hours up to 2^49; minutes in [0, 59] and seconds in [0, 60] with degrees in [0, 359], hours in [0, 23] or degrees in [0, 89] give [0, 360], [0, 360] and [0, 90]; angles in whole degrees, minutes and seconds (fields up to 2^35) keep their strict order. Any other number of fields raises ValueError and an unreadable field what float() raises. shift_to turns a selected coordinate into itself plus -1, 0 or 1 box lengths (one rounding off), and, if it was within 1.5 box lengths of its reference, leaves it within half a box length plus 2^-52 (|x| + L) of it with no image nearer by more than 2^-51 (|x| + L); a coordinate clearly within half a box length is not changed, nor are unselected ones; the caller's array changes only with copy=False. (Findings: 359:59:59.99999999999999 and 23h59m59.99999999999999 give 360.0, outside [0, 360); shift_to twice can differ from shift_to once, -0.5 - 2^-52 around 1 in a box of 3 goes to 2.5 and then to -0.5.)", "quantifier": "all finite fields, texts and readers of numbers; all arrays, masks, references and box lengths between 2^-900 and 2^900", "why_tests_cant": "ranges and orders must survive every pattern of four dependent roundings; the failing inputs are single doubles next to a boundary", "anchors": ["src/pyhipp/astro/coords/cvt.py:dms_to_deg", "src/pyhipp/astro/coords/cvt.py:hms_to_deg", "src/pyhipp/core/dataproc/frame.py:PeriodicBox.shift_to"]}
{"id": "C94", "title": "Bound, safe division and normalize in double precision", "statement": "In IEEE double precision Num.bound lets NaN through and brings every other number (infinities included) between its bounds, changing only what was outside. safe_div uses a denominator from lo on unchanged and replaces any smaller one by lo, and is correctly rounded and finite for |x| <= 2^1000 lo. norm has relative error at most (D(n) + 3) 2^-52, where D(n) is the number of additions an element takes part in (26 + log2(n/56) for numpy), is never below the magnitude of a component and equals it exactly for a vector along one axis. normalize returns each component within (2 D(n) + 8) 2^-52 of component / max(norm, lo); the squares of the result add up to 1 within (5 D(n) + 20) 2^-52 for a vector at least lo long; for every finite input no component leaves [-1, 1], is NaN or changes its sign; a vector along one axis becomes exactly that unit vector. (Findings: a finite vector whose squares overflow, such as (2^600, 2^600), is normalized to the zero vector; safe_div can return infinity for finite arguments, 1e300 / 0.)", "quantifier": "all double-precision vectors of up to 2^53 components, all bounds, every order of summation", "why_tests_cant": "bounds such as |component| <= 1 must survive every pattern of roundings and every summation order; a violation would be one bit on rare inputs", "anchors": ["src/pyhipp/core/dataproc/num.py:Num.bound", "src/pyhipp/core/dataproc/num.py:Num.safe_div", "src/pyhipp/core/dataproc/num.py:Num.norm", "src/pyhipp/core/dataproc/num.py:Num.normalize"]}
{"id": "C95", "title": "An interrupted dump can be resumed", "statement": "Group.dump writes one member at a time. If it is stopped between two members (KeyboardInterrupt, or any exception from outside, at any point), nothing the file held before is lost, everything already written is kept by the rest of the run, and with the default flag 'x' every value present is already the final one. Repeating the same dump with flag 'ac' on that file ends with exactly the same result and the same file (every object, link and value) as one uninterrupted dump on the original file, whatever the flag of the interrupted run and however many attempts were interrupted; in particular loading then gives back the mapping, and dumping a finished mapping again changes nothing. Repeating with 'x' once anything has been written raises ValueError and leaves the file as it is. The same holds for File.dump_to with a key and flags 'ac'. It also holds for the attributes written by attrs.dump: stopped between two attributes, nothing else has changed, repeating with 'ac' ends as one uninterrupted dump would have, and repeating with 'x' is refused. (Findings: with its default flags ('ac', 'x', 'x') an interrupted File.dump_to can not be repeated: the second call raises ValueError as soon as the first has written anything.)", "quantifier": "all files, groups, nested mappings with plain member names and storable arrays, all points between two operations, all sequences of interrupted attempts", "why_tests_cant": "every crash point of every nested mapping on every prior file content has to be tried, and each retry compared with the uninterrupted run", "anchors": ["src/pyhipp/io/h5/named_objs.py:Group.dump", "src/pyhipp/io/h5/named_objs.py:Group.create_group", "src/pyhipp/io/h5/named_objs.py:DatasetManager.create", "src/pyhipp/io/h5/named_objs.py:File.dump_to"]}
{"id": "C96", "title": "Field interpolation in double precision", "statement": "FieldInterpolator.value_at, executed in doubles, returns one finite value per point, in the order of the points, and each is the exact trilinear interpolant of the periodic field at a position within relative rounding of the requested one (2^-51 of its magnitude plus one cell, on each axis), off by at most 2^-48 of the largest cell magnitude (plus 2^-1069). So a value never leaves the range of the field by more than that; a field that is nowhere negative never gives a negative value, exactly; and at a point whose coordinates are exactly whole numbers of cells (any period) the value is the stored one, exactly. new_density_field_from_file gives one plus the stored contrast, correctly rounded, in every cell, and no negative density when no contrast is below -1. (Findings: a constant field of 1.0 on a box of 4 cells is interpolated to 1.0000000000000002 at (0.05, 0.05, 0.05); a coordinate computed as 3 times the cell side, on a box of 5 cells, is not a grid point for the interpolator: a cell holding 2^60 next to a zero cell makes the value at that zero cell 512.)", "quantifier": "all meshes with 1 to 2^53 cells per side and box side between 2^-900 and 2^900, all fields of finite doubles up to 2^1000, all lists of points within 2^52 cells of the origin", "why_tests_cant": "floating-point error bounds, sign and exactness at grid points must hold for every field, mesh and position", "anchors": ["src/pyhipp/field/cubic_box/cosmic_web.py:FieldInterpolator.value_at", "src/pyhipp/field/cubic_box/cosmic_web.py:FieldInterpolator.new_density_field_from_file", "src/pyhipp/field/cubic_box/mass_assignment.py:_LinearShapeFn.weights_at"]}
{"id": "C97", "title": "Tidal classifier in single precision", "statement": "TidalClassifier stores eigenvalues as float32, each the nearest one (NaN stays NaN, magnitudes from 2^128 become infinite, order is kept). It accepts every array of n^3 triples in order and raises AssertionError exactly when the size or the order of the stored triples is wrong. A cell's web type is the number of its eigenvalues whose stored value is above the threshold as float32: between 0 and 3, never more than the number above the threshold in double precision, never less than the number clearly above it (by 2^-24 of both magnitudes plus 2^-149), exactly the number above 2^-150 for the default threshold 0; raising the threshold never raises a type. web_type_at and lam_at give, for each position in order, the type and stored eigenvalues of the nearest grid point (periodic, up to a rounding margin). grid_points_of_web_type gives the points of that type in C order, each once, in float32, and looking them up gives back that type and those cells; unknown names raise KeyError. The four fractions are correctly rounded, in [0, 1], and sum to 1 within 2^-52. (Findings: the order check comes after the conversion, so (1 + 2^-30, 1, 2) is accepted; a positive eigenvalue 2^-151 is not counted against threshold 0; in a box of side 2^-150 the float32 grid points of all knots collapse onto the origin and are classified as its void.)", "quantifier": "all arrays of double triples (including infinities and NaN), all thresholds, all positions; for the grid points all boxes of at most 2^22 cells per side with side between 2^-100 and 2^100", "why_tests_cant": "the effect of double to float32 conversion on counts, order and positions must hold for every value, threshold, mesh and position", "anchors": ["src/pyhipp/field/cubic_box/cosmic_web.py:TidalClassifier", "src/pyhipp/field/cubic_box/mesh.py:_Mesh.x_to_xi_nd"]}
{"id": "C98", "title": "neighbour regression and masked fraction in double precision", "statement": "For one query point with the tree's distances and indices: the top-hat kernel is exactly 1 strictly inside its radius and exactly 0 elsewhere; the Gaussian kernel is in [0, 1], exactly 1 at distance 0, exactly 0 from 40 widths on, and the exponential of the exact exponent up to a relative error 2^-50 of that exponent. Neighbours not closer than max_dx do not count. The sum is the exact weighted sum, the mean the exact weighted mean (weights: 1, training weight, kernel, or their rounded product) up to (4 (26 + log2 (k / 56)) + 4) 2^-52 of the largest magnitude, so not further than that outside the neighbours' values; without neighbours it is the fill value. The masked fraction is a number in [0, 1], the exact ratio of the masked neighbours' weight to all neighbours' weight up to (4 (26 + log2 (k / 56)) + 5) 2^-52 if that weight is at least 1e-9; exactly 1 if all are masked, exactly 0 if none is; masking more points never lowers it; it is flagged invalid exactly when fewer than min_count neighbours are near enough. (Findings: with all neighbours 40 Gaussian widths away the mean is NaN, not the fill value; there the masked fraction is 0 whatever the mask; a Gaussian of width 2^-600 is NaN at distance 0.)", "quantifier": "all finite values and training weights not negative, all kernels with finite weights not negative (any exp within an ulp), all neighbour lists of at most 2^53, all limits and masks; widths from 2^-250 to 2^250", "why_tests_cant": "rounding, underflow of the kernel and the order of summation must be harmless for every value, weight, distance and number of neighbours", "anchors": ["src/pyhipp/stats/regression.py:_KnnRegression.__call__", "src/pyhipp/stats/regression.py:_LocalKernelRegression.__call__", "src/pyhipp/stats/regression.py:KernelRegressionND.masked_fraction_by_knn", "src/pyhipp/stats/kernel.py:Gaussian", "src/pyhipp/stats/kernel.py:Tophat"]}
{"id": "C99", "title": "Binned accumulation in double precision", "statement": "BinnedData(bins) with the default dtype: after any history of add calls, refused ones included, every bin holds the double-precision sum, from left to right and from 0, of the weights of exactly the samples located in it; samples located outside leave no trace whatever their weights (NaN included), and splitting the same samples into calls differently changes no bit. With finite weights a bin is the exact sum up to n 2^-52 of the sum of magnitudes for n samples; it is exact, in whatever order, for weights that are whole multiples of one power of two summing up to at most 2^53 of it in magnitude, so plain counts are exact up to 2^53. With weights that are not negative no bin is ever NaN or negative and further calls never lower it. A call is refused (AssertionError) exactly for a wrong number of weights and then changes nothing. BiSearchBins accepts any two or more edges, keeps them sorted, and a finite sample is at or above edge i exactly when its index is at least i; NaN counts as above the last. (Findings: a bin that has reached 2^53 counts no further; weights 2^53, 1, 1 leave 2^53 but 1, 1, 2^53 leave 2^53 + 2.)", "quantifier": "all histories of calls, all equal-space and explicit bins, all double samples and weights (infinities and NaN included)", "why_tests_cant": "rounding depends on every weight that has gone into a bin, over histories of any length and order", "anchors": ["src/pyhipp/stats/binning.py:BinnedData", "src/pyhipp/stats/binning.py:BiSearchBins"]}
{"id": "C100", "title": "Neighbour density estimates in double precision", "statement": "The volume behind the estimates is that of the n-dimensional ball (pi^m r^2m/m!, 2 m!(4pi)^m r^(2m+1)/(2m+1)!) up to 3n relative errors of 2^-52, is positive, and never falls when the radius grows. Fitted weights are the training weights over their sum, not negative, up to d+1 such errors, d the depth of numpy's summation. The local estimate with a radius and the nearest-neighbour estimate are the shares of the neighbours (those closer than max_dx), with a kernel each multiplied by kernel/average kernel, over the volume of the ball of radius max_dx or of min(largest distance, max_dx), up to d + 2d' + 3n + 5 such errors; no neighbours give exactly 0. The reported count is that of the neighbours closer than max_dx and the reported radius the smaller of the largest distance and max_dx. (Findings: where the kernel is zero at all neighbours, as for the Gaussian beyond 40 widths, the estimate is NaN instead of 0; if all nearest neighbours coincide with the query point the estimate is infinite.)", "quantifier": "all numbers of dimensions, training weights, kernels, distances and indices returned by the tree (zero or of magnitudes between 2^-100 and 2^100, up to 2^53 of them; radii with n (k + 3) <= 350)", "why_tests_cant": "a bound on the accumulated rounding over any number of points, neighbours and dimensions; a test compares a few densities with a tolerance", "anchors": ["src/pyhipp/stats/density_estimation.py:_LocalKernelDensityEstimation", "src/pyhipp/stats/density_estimation.py:_KnnDensityEstimation", "src/pyhipp/stats/kernel.py:Tophat._ball_volume"]}
{"id": "C101", "title": "Contour levels of a scatter plot in double precision", "statement": "For a mesh of densities that are finite, not negative and not all zero: the cumulative probability has one entry per mesh point, between 0 and 1, never falling, the last exactly 1, each the exact share of the densities up to it up to 4 n 2^-52. The level for a fraction p in [0,1] is one of the densities; those at or above it hold at least the fraction p of the total and those strictly above it at most p, up to (4 n + 1) 2^-52. A larger p never has a higher level; p >= 1 gives the smallest density, p <= -1 the largest. scatter(hidden_in_p=p) shows exactly the points whose density is strictly below a level that is never above the contour's for p, so a point at least as dense as the whole mesh is always hidden. The nearest-neighbour density on the plane is the count (or the weight) of the k neighbours over pi r^2, r the largest distance, up to d + 4 relative errors of 2^-52, d the depth of numpy's summation. (Findings: where all k neighbours coincide with the query point the density is infinite instead of an error.)", "quantifier": "all meshes of up to 2^48 densities, of total at most 2^1000; all fractions; all sets of neighbours with distances of magnitude 2^-300 to 2^300", "why_tests_cant": "a bound on the rounding accumulated over any number of mesh points, and monotonicity over all pairs of fractions; a test looks at a few contours", "anchors": ["src/pyhipp/plot/two_dim.py:Scatter2D.cum_prob_mass", "src/pyhipp/plot/two_dim.py:Scatter2D.z_level_at_percentile", "src/pyhipp/plot/two_dim.py:Scatter2D.scatter", "src/pyhipp/plot/two_dim.py:KNearestNeighbor2D.on"]}
{"id": "C102", "title": "The flat cosmology and its mass-radius relation in double precision", "statement": "The constants of the unit system and of the cosmology are the doubles nearest to their decimal values. Today is exact: for every matter density in [0,1], at z = 0 the expansion factor E is exactly 1, H is exactly the constant, the matter share is exactly the given one, the dark-energy share the rounded complement, a = 1, and a = 1 is redshift 0. At any other redshift E^2, E, H, the shares, the scale factor, the baryon fraction, G in cosmological units, the critical and mean densities and the mass in a ball differ from the formulas by at most a stated number (1 to 36) of relative errors of 2^-52; the two shares are in [0,1] and add up to one within 2^-50. Rounding never reverses an order: E and H never fall, and the scale factor never rises, with redshift; the redshift never rises with the scale factor; a larger ball never has less mass. z2a(a2z(a)) is a up to 4 relative errors, a2z(z2a(z)) is z up to 2^-48 (1+z), and m_to_r(r_to_m(r)) is r up to 44 relative errors for any power function with 4 relative errors.", "quantifier": "all matter densities from 2^-20 to 1 (today: 0 to 1), all redshifts with 2^-20 <= 1+z <= 2^20, all hubble parameters from 2^-10 to 2^10, all radii from 2^-40 to 2^40, all pairs of these for the orders", "why_tests_cant": "error bounds, monotonicity and round trips over all doubles in the ranges; a test compares a few redshifts with a tolerance", "anchors": ["src/pyhipp/astro/cosmology/flat_lambda_cdm_nr.py:_FlatLambdaCDMNR", "src/pyhipp/astro/cosmology/flat_lambda_cdm_nr.py:_Densities", "src/pyhipp/astro/cosmology/flat_lambda_cdm_nr.py:_make_us_for_cosmology", "src/pyhipp/astro/quantity/unit_system.py:_Constants", "src/pyhipp/astro/quantity/unit_system.py:_UnitSystem"]}
