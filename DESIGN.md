# Formal model of pyhipp in Rocq (Coq 8.16.1)

## Layout

`rocq/theories/` is flat. Each area has
* `XModel.v` - executable Gallina model, every definition cites the file and lines in /repo;
* `XSpec.v`  - the small independent specification the theorems are stated with (when needed);
* `XProofs.v` - lemmas;
* `XProps.v` - only the property theorems (`Theorem Cnn_... . Proof. exact lemma. Qed.` followed by
  `Print Assumptions`) and `Example`s showing that the hypotheses are met by concrete cases.

Theorem names start with the property id. `_partial` = a weaker statement than the property,
`_refuted` = the property as stated is false of the faithful model; the witness is a finding about the code.

## Modelling conventions

* Exceptions are values: `Ok v | Err e` with `e` the Python exception class.
* Stateful code is `state -> input -> result * state`; the state is returned also on failure, so "nothing
  changed on failure" is a statement about the returned state.
* Python `int` is `Z`; `%` and `//` on ints are `Z.modulo`, `Z.div`.
* Algorithms that only compare numbers are generic over a boolean total order (hence valid for floats
  without NaN). Arithmetic without transcendental functions is over `Q`; sqrt/exp/trig over `R` (stdlib
  axioms of the reals). Where rounding matters: Flocq binary64, or an abstract monotone
  rounding operator.
* External libraries (numpy, h5py, scipy, pandas) are modelled by explicit Gallina functions written from their
  documented contract; they are part of the trusted base.

## Plan per property

| id | modelled | method |
|----|----------|--------|
| C01-C06 | DataDict / DataDict.__getitem__ etc. over a heap of ordered dicts (sharing explicit) | induction over path segments, well-formedness invariant over operation histories |
| C07-C09 | DataTable over a store of numpy buffers with views | fresh-buffer invariant, refinement of histories to a partial map plus a key order |
| C10-C14 | h5py file as a store of objects (groups with sorted links, datasets with dtype/shape, soft links); Group.dump/load, File.dump_to/load_from | induction over the nested mapping; extension preorder on files |
| C15 | to_h5_data/from_h5_data | induction over the type description |
| C16 | AttrManager, DatasetManager | map refinement |
| C17 | Group.what as list of lines | induction over depth |
| C18 | create_soft_link | case analysis over link store |
| C19 | KeyList.matched, load(keys) with the regex match as an oracle | list induction |
| C20-C21 | BinaryFile over byte lists with a file position | encode/decode round trip |
| C22 | ExcelFile dump/load (sheet-name flattening) | round trip, split/join |
| C23 | ConfigFileParser.get over nested dicts | path induction |
| C24-C27 | interpolate.py over a total order / Q | loop invariant of the bisection, algebra |
| C28-C31 | binning.py | same, plus history induction |
| C32-C35 | dataproc: Chunks, Mask, Num, Filter | list induction |
| C36-C37 | PeriodicBox, Grid over Q | floor/mod algebra |
| C38-C41 | kd_mesh linked lists, kd_tree distance, Mesh | array-level invariants |
| C42-C45 | CIC, interpolator, classifier, density join over Q | sums over lists |
| C46-C47 | gravity Fourier factors, smoothing windows over Z/Q/R | algebra |
| C48-C53 | statistics reductions, resampling (generator as an oracle), transforms | order statistics, all oracle outcomes |
| C54 | point groups as integer matrices | finite sweep (stated) + linear algebra over Z |
| C55-C56, C62, C66 | cosmology, kernels, polar frame over R | real analysis (stdlib axioms) |
| C57-C60 | caches, ParamList, formatters, subplots | history invariants |
| C61, C63-C65, C67 | unit conversion, histogram, masked fraction, Array, combine_dicts | direct |

| C68 | RandomNoise over any sequence of drawn numbers | list induction; sign/zero arguments over R |
| C69-C70 | DensityEstimation, Regression: neighbour selection with the tree query as an oracle satisfying its contract | exact characterisation of the accepted set, sums over it |
| C71 | BinnedVolumeDensity.from_raw with the bootstrap draw as input | windows of C31 composed with C51 |
| C72 | Histogram2D, KNearestNeighbor2D, Scatter2D over Q/R | sums over cells, sorted cumulative sums |
| C73 | Axes.add_secondary_axis*, fill_between_xy over a record of what matplotlib was told | case analysis; inverse of piecewise linear maps over R |
| C74 | NFW / virial relations, HaloTheory keyword dictionaries | real analysis, history induction on the shared dictionary |
| C75 | LambdaCDM, UnitSystem | real analysis (integrals with Coquelicot), unit algebra |
| C76 | Rng: a heap of generators over an abstract source of bits | refinement to one owner per generator |
| C77 | HasDictRepr/HasListRepr, HasLog | induction over attribute trees, history induction |
| C78 | to_file/from_file, txt_to_h5, group indexing/deletion over a file system of H5 stores | composition of C10-C15 |
| C79 | DensityField/Interpolator/classifier dump and load | composition of C10 with C42-C45 |
| C80 | HaloTheory tables read once from a file; lg sigma interpolator | history induction over changing files |
| C81 | DataTable.col_stacked/row_stacked/to_dict_of_list | index arithmetic on row-major arrays |
| C82 | AxesArray/SubFigureArray object identity, last_draw, colorbar, ColorSeq, figure keywords | heap of wrappers; induction on histories and shapes |
| C83 | kd_mesh, x_to_xi, CIC weights and deposits in binary64 (Flocq) | monotone rounding, error bounds by induction over deposits, concrete refutations |
| C84 | EqualSpaceBins (constructor, locate, x_edges, locate_bound, locate_nearest) in binary64 (Flocq) | monotone rounding, relative error bounds, concrete refutations |
| C85 | DataTable._to_h5_data / _from_h5_data through Group.dump / load, alone and as a field of a group-like object | corollary of the dump/load induction (C10), permutation of strictly sorted columns; concrete refutations |
| C86 | DatasetManager.keys/values/items/dump; File handle (open, with, close, from_raw) | induction over members and items; case analysis for all blocks |
| C87 | regression.py entry points: _cvt_x_shape, fit, checks of the tree, default radius over R (RegeModel) | row-by-row reductions (C48) composed with the neighbour contract; counterexample for the default radius |
| C88 | the compiled kernels with unchecked memory: an access outside an array is an outcome of its own, np.empty is an array of None, numbers have arbitrary operations (RawModel) | loop invariants: indices in range, prefix written; counterexamples where nothing checks the shape |
| C89 | Sum, Count, Mean, StdDev on binary64 arrays with masks and weights (FredModel), numpy's pairwise summation, an inductive predicate for "any order and grouping of additions" | forward error analysis by induction over the additions; exactness for multiples of a power of two; counterexamples computed |
| C90 | Standardize on binary64 tables (PrepFloatModel), built on the sums of C89 | forward error analysis; monotone rounding for the order; counterexamples computed |
| C91 | np.quantile, np.median, np.cumsum, np.interp and their callers on binary64 samples (FquaModel); sorting is a parameter | two halves of the interpolation never overlap (case analysis on mantissa and parity), monotone rounding, Lipschitz bound for the index error; forward error analysis for the weighted one; counterexamples computed |
| C92 | Grid1d, centers, locate, the two np.mgrid slice forms and np.linspace on binary64 (GfltModel) | sortedness from signs of rounded differences, monotone rounding, forward error analysis of start + i*step; counterexamples computed |
| C93 | cvt.py on binary64 (AngModel), frame.py shift_to over binary64 (ProcModel, ProcFloat.arith64) | forward error analysis, monotone rounding with the extreme case computed, three-case analysis of the rounded difference; counterexamples computed |
| C94 | num.py on binary64 (NfltModel), sums in any order (FredSpec) | sqrt of a rounded square is exact in binary; monotone rounding; forward error analysis; overflow cases by Flocq correctness lemmas |
| C95 | Group.dump as a small-step machine, one h5py call per step (H5cModel), on the file model of C10-C18; an operation in flight is whole; a process killed without closing the file is not modelled | refinement: the machine reaches exactly the end of [dump]; replay invariant (each object is as in the stopped file, or a dataset as in the run being replayed) |
| C96 | value_at and the density constructor in binary64 (FintModel), double data and positions, eight terms added from the left as written | error of each product and of the left-to-right sum; weights exactly complementary (C83); exact interpolant defined on reals by nested linear interpolation |
| C97 | TidalClassifier with binary32 storage and coordinates (TidModel: conversions by Flocq, threshold cast to float32 as numpy does for a Python float), cells and positions as in C83 | conversion is monotone incl. overflow and NaN; error of both roundings below half a cell for the grid points; counts by comparison of tests |
| C98 | kNN regression and masked fraction for one query in binary64 (FknnModel; the tree's answer is an argument, numpy's exp any function within an ulp, witnessed by the correctly rounded one), on C89's reductions | monotonicity of pairwise summation for non-negative terms (incl. infinity) for [0, 1], ends and monotonicity; error bounds of C89 for the values; exp 5 >= 128 for the underflow |
| C99 | BinnedData (dtype float, shape ()) over either kind of bins in binary64 (FbinModel; EqualSpaceBins as in C84, searchsorted as in C92) | the loop is a left fold per bin (induction over histories), bounds from C89's sums; np.sort's order embedded into the reals, NaN last |
| C100 | fit and __call__ of the radius and nearest-neighbour density estimates and _ball_volume in binary64 (FdenModel), one query point, the tree's answer an argument | algebra of relative factors (1 + 2^-52)^k over magnitudes that stay clear of overflow and underflow, sums by induction over C89's summation trees |
| C101 | cum_prob_mass, z_level_at_percentile, the selection of scatter and KNearestNeighbor2D.on in binary64 (FlevModel), np.sort's result an argument constrained to be the sorted permutation | running-sum bounds of C91, a counting lemma for searchsorted over a sorted list, sums over prefixes and suffixes, C100's factor algebra and PI bound |
| C102 | _FlatLambdaCDMNR, _Densities and the units they use in binary64 (FcosModel); the power with exponent 1/3 is an argument with a relative error bound | C100's algebra of relative errors, monotonicity of rounding, the spacing of doubles around 1, bounds on ln and exp for the rounded exponent 1/3 |

## Trusted base

1. Coq 8.16.1's kernel (with `vm_compute`, used for closed computations), `coqc`, and the standard library. Flocq (C25, C26, C28,
   C36) and Coquelicot (C56, C74, C75, C80) are used as libraries of *proved* lemmas; they add no axiom.
2. The axioms that `Print Assumptions` lists, theorem by theorem, in [ASSUMPTIONS.md](ASSUMPTIONS.md) (generated by
   `tools/assumptions.py`). There are four, all from the standard library: `ClassicalDedekindReals.sig_forall_dec` and
   `sig_not_dec` (the construction of R), `FunctionalExtensionality.functional_extensionality_dep` and
   `Classical_Prop.classic`. They occur only in theorems about real numbers and binary64 values. About three quarters of the theorems are closed
   under the global context. No axiom, parameter, functor, module type or admitted proof of our own.
3. That the model is the code. Nothing was run: the model was written by reading /repo. Each definition cites the lines it models, with its
   simplifications. `tools/coverage.py` lists the functions of /repo that no comment cites.
4. The contracts of the libraries under pyhipp, each written as a Gallina function or as an explicit hypothesis of the theorem:
   * CPython: insertion-ordered dict, slicing, exceptions, attribute lookup, `isinstance`, generators consumed once;
   * numpy: indexing, broadcasting of the shapes used, copy/view, `searchsorted`, `histogram`, `quantile`, `argsort` (any permutation that sorts), `floor`/`astype(int64)`, cumulative sums - in exact rationals unless the theorem says binary64;
   * h5py: an in-memory store of groups, datasets, attributes, soft links, modes `r r+ w x a`, name-ordered iteration, conversion to the stored dtype; no crash inside one h5py call, no concurrent writers;
   * scipy: cKDTree queries return exactly the points their contract says (hypothesis), FFT is the finite Fourier sum (C46 proves that the two assumed transforms are inverse), `interp1d`, `eigvalsh` returns the roots of the characteristic polynomial (hypothesis);
   * astropy cosmology: the published formulas of flat/non-flat LCDM integrals (C75); hmf: a function of the keywords it is given (C74);
   * matplotlib: a record of the calls made and of the keyword arguments given; what is drawn is not modelled;
   * numba: compiles the Python it is given (serially: the code has no `prange`), with unchecked array accesses (C88); int64 of a NaN or huge float is some integer.

## Modelled

Every module of src/pyhipp: core (abc, arrays, containers, dataproc), io (h5, binary, excel, yaml), numerical, stats, field
(cubic_box, neighbor), group_theory, astro (coords, cosmology, quantity, stats, plot) and plot. Per function see the citations and
`tools/coverage.py`.

## Not modelled

* Rounding, except where a theorem says binary64 or binary32 (C25, C26, C28, C36, C83, C84, C89-C94, C96-C102): all other arithmetic is exact over Q or R. Overflow of int64 is
  modelled in C28 only.
* Text of `repr`/`print`/log messages beyond the structure stated in C77; docstrings.
* What matplotlib draws, font and colour tables, the contents of style files.
* Byte layout of HDF5, compression, parallel access, crashes within a library call. (Crash points *between* calls are covered: every
  model function returns the state reached when an exception is raised, C12, C57, C78.)
* Performance, memory use, thread scheduling inside numba and the C libraries.
* The numerical values of physical constants and fitting formulas are copied; what is proved is how they are used.

## Findings (theorems with the suffix `_refuted`, or stated in the property; generated by tools/mk_findings.py)

* C06: Keys containing a slash that entered through the constructor/update are reported by `in` but not reachable with [] (finding).
* C13: writing 1.5 over an int dataset reads back 1; a different shape raises
* C17: with dset=False/group=False the last shown line may lack the end marker
* C18: a dangling link is not reported by `in`, so recreating it fails even with flag "ac" (finding).
* C20: with a scalar type such as np.float32 loading works but skip_sect always raises TypeError; skip_rec with n = -1, which for a load means 'all that is left', goes one element back.
* C21: the markers are compared with each other but never with the number of bytes asked for, so any marker value is accepted and asking for too little of a record can return wrong data without an exception.
* C22: load_file(as_datatables=True) always raises ValueError; a workbook with a sheet 'a.b' followed by a sheet 'a' loads as the table 'a' alone, everything below it silently dropped.
* C23: a level that is a string is searched for the key as a substring, giving TypeError or silently skipping.
* C26: in binary64 the value can leave the range of the ordinates: between (0, 7) and (3, 7) it is below 7 at 1.
* C27: the check does not require order, so unsorted abscissae pass and then a node's own ordinate is not returned.
* C28: equal-space bins report +inf and samples beyond int64 bin widths as below the first edge; in binary64 the edge 7 of 9 equal bins of [0,1] is located in bin 6.
* C31: the entry sub_h is the combined histogram h, not the counts of the sub-bins.
* C33: put documents that a short mask is repeated; it raises ValueError.
* C34: a negative denominator is replaced by +lo, so 1 / -1 comes out as 1e10.
* C36: coordinates two periods away are not wrapped.
* C39: with r = L/2 the same particle is returned more than once.
* C46: the solver fails with ValueError for every odd number of grids.
* C47: FFTSmoothing rejects odd sizes with AssertionError; FourierSpaceSmoothing accepts them and returns an array one short along the last axis.
* C48: a masked-out NaN makes the sum NaN; counting a table without a mask returns one number instead of one per row.
* C49: with weights a probability outside [0, 1] is not refused but gives a value between the extremes; equal weights do not give the unweighted quantile; among tied samples the weighted quantile depends on the order they are given in; the two-probability specs always raise ValueError in an error bar.
* C50: the standard deviation returns the square root of the fill value, NaN for the default one; the error bars of a table with no rows raise ValueError.
* C51: datasets given as a generator are consumed after the first resample; n_resample <= 0 is IndexError; columns of unequal length raise or not depending on the draw.
* C54: len(group) always raises AttributeError (finding).
* C55: the constant kpc_to_m is a million times a kiloparsec.
* C56: with_baryon_effect needs Omega_b0 > 0, otherwise ValueError; without it Omega_b0 = 0 is silently replaced by 1e-5 and 1e-5 of hot dark matter is always added.
* C57: a self-requesting fallback runs twice; after a failure the two-level cache contains an empty group.
* C58: replacing a parameter by one with another name leaves the old name pointing at the new parameter; an integer-valued Param truncates values set later; numpy integers as subscripts raise KeyError.
* C59: fmt_marker without style resets the style; errorfill without yerr always raises TypeError; leg(loc='center left'/'center right') is turned into an invalid location; a bad frame property makes all later frame calls fail; tick_params that is not a map is an UnboundLocalError; a style sheet replaces whole sections; writing into a section of one configuration changes the class default.
* C60: a scalar extent never works - left equals right.
* C61: for a negative angle written with the sign on the first field the result is too large by twice the minutes and seconds; angles between -1 and 0 degrees lose their sign.
* C62: max_radius=None raises TypeError (finding).
* C63: a query exactly on the last edge gets the fill value although samples there are counted; an axis with a single location raises IndexError; surplus query coordinates are ignored; mismatched dimensions/weights raise.
* C64: below the 1e-10 floor on the weight sum the result is not the fraction.
* C65: argsort() with the default axis never returns - the constructor arguments are swapped; IndexArray can never be built; zeros/ones of the index classes raise TypeError.
* C66: on the polar axis the tangential components are lost; positions given as whole numbers are always refused with a TypeError.
* C69: an isotropic kernel has no effect on an unweighted estimate; the default radius is computed from the query points and is 0 for a single query.
* C70: a tuple of two reductions is a TypeError; a generator of reductions is consumed after the first query.
* C71: with the default range the range ends at the maximum and is half-open, so the largest sample is dropped however often it occurs, and a constant sample leaves nothing.
* C72: fit closes cells on the left, on() on the right, so samples on interior edges are read from the wrong cell and with the default range the smallest x or y are read as density 0 and are never hidden; contour raises ValueError unless percentiles are strictly descending with distinct levels, and always when cmap is given without clearing colors.
* C73: add_secondary_identical_axis always raises TypeError; fill_between_xy compares only total lengths, so mismatched curves are accepted.
* C74: mass_def='custom' writes into the caller's dictionary; the keywords never mention the model's own cosmology.
* C75: the omega_l0 parameter is not omega_l(0) when T_cmb > 0; from_astropy_model drops Neff; comoving distances below 1e-4 Mpc/h all map to the redshift of 1e-4; writing a parameter later changes some derived values and not others.
* C76: this is not so for points on the sphere, whose batches draw all cosines first.
* C77: for Standardize and BinaryFile the listed names do not exist, so repr and print always raise AttributeError; all other classes of the library are representable.
* C78: to_file with a missing group raises KeyError only after the file was created or truncated, so that repeating the call raises FileExistsError; the text-to-file shortcut ignores its dump flag and always uses 'ac'; Group.datasets.what and .ls always raise TypeError.
* C79: on joining, sizes are only compared by numpy broadcasting, so that a one-cell field is silently added to every cell, and box sizes are never compared.
* C80: a reversed range is accepted and returns at its first end the value of the other.
* C81: row_stacked takes a vector as one row even beside columns with one row per object, so a mixed table is a ValueError unless there are as many objects as components, when objects and components are silently mixed.
* C82: an AxesArray inside a list, or as cax, is handed to matplotlib unconverted; levels written as integers are table indices, so [0, 1] are the first two colours of the map, not its ends.
* C83: without the margins both fail: x_to_xi in a box of 4 unit cells sends 0.49999999999999994 to grid point 1, and the documented guarantee of query_points ('all points within the distance are guaranteed to be included') fails in a unit box with 10 cells a side, where the point 0.6 is exactly 0.4 from the origin through the boundary and the query of radius 0.4 around the origin misses it.
* C84: the documented 'x >= x_edges[-1] returns n_bins' fails: EqualSpaceBins((0., 1.), 93).locate(1.) is 92. Finding: EqualSpaceBins((0., 4.), 2).locate(-5e-324) is 0 although the sample is below the range. Finding: a sample 2^64 steps above the range is located at -1, and with an infinite bound (which is accepted) every sample is located at 0 (e = inf) or -1 (b = -inf).
* C84: EqualSpaceBins((0., 4.), 2).locate(-5e-324) is 0 although the sample is below the range. Finding: a sample 2^64 steps above the range is located at -1, and with an infinite bound (which is accepted) every sample is located at 0 (e = inf) or -1 (b = -inf).
* C84: a sample 2^64 steps above the range is located at -1, and with an infinite bound (which is accepted) every sample is located at 0 (e = inf) or -1 (b = -inf).
* C85: the order of the columns is lost: they come back sorted by name (so positional use, e.g. col_stacked, differs after a round trip). Finding: a column whose name contains a slash is not a column of the table read back. Finding: writing a table over an older one with flag 'ac' leaves the old table's other columns in place.
* C85: a column whose name contains a slash is not a column of the table read back. Finding: writing a table over an older one with flag 'ac' leaves the old table's other columns in place.
* C85: writing a table over an older one with flag 'ac' leaves the old table's other columns in place.
* C86: unlike Group.dump, datasets.dump does not look at the values first: what precedes a value that cannot be stored stays written.
* C87: when max_dx is not given by_local_kernel takes a tenth of the spread of the points asked for, so the result for a point does depend on the others: a point asked for alone gets radius 0 and usually the filling value.
* C88: with y shorter than x, bisearch_interp, bisearch_interp_2d and Linear(..., check=False) read and derivative() writes outside the arrays; bisearch_interp_fix_oob reads the first element of an empty x before the assertion that there is one; a kd mesh with n_grids = -1 passes every check and reads outside its offsets at the first query.
* C89: sums depend on the order of the array, 1e16 + 1 - 1e16 against 1e16 - 1e16 + 1; the mean of 0.1, 0.1, 0.1 is larger than all three, and StdDev of that constant array is not 0.
* C90: with the default floor 1e-10 a constant column is not standardized to zeros, three rows 107374182.4 all become -1, because the rounding errors of the mean and of the deviation are equal and exceed the floor; trained on 0 and 2, both 2^-60 and 2^-59 become -1 and come back as 0.
* C91: the median of 0.3 and 3.9 is 2.1, their quantile at 1/2 2.0999999999999996; the quantile of 0, 1, ..., 22 at 15/22 is 14.999999999999998, not 15; a weighted quantile can exceed the largest sample and so fall when p grows, weights 3 and 4 of 4.0 and 8.6 give 8.600000000000001 at 1 - 2^-53 and 8.6 at 1; a weighted error bar can be negative, -41, 1.2, 1.2 with weights 2^-10, 0.15902343750000003, 0.84 give the lower error -2.9e-15.
* C92: Grid1d([nan]) is accepted; a sorted array ending in two infinities is rejected; near overflow centres are infinite or raise AssertionError; the centre of a cell between two neighbouring doubles is located in the next cell; GridMd.at[0.:1.:50j] ends below 1 and [0.:7.:26j] beyond 7; GridMd.at[1.:1.3:0.1] passes its stop; from_data_range of samples that differ by subnormal amounts, 0 and 3*2^-1074 with 6 locations, raises AssertionError; sizes or data without a partner are silently dropped.
* C93: 359:59:59.99999999999999 and 23h59m59.99999999999999 give 360.0, outside [0, 360
* C94: a finite vector whose squares overflow, such as (2^600, 2^600), is normalized to the zero vector; safe_div can return infinity for finite arguments, 1e300 / 0.
* C95: with its default flags ('ac', 'x', 'x') an interrupted File.dump_to can not be repeated: the second call raises ValueError as soon as the first has written anything.
* C96: a constant field of 1.0 on a box of 4 cells is interpolated to 1.0000000000000002 at (0.05, 0.05, 0.05); a coordinate computed as 3 times the cell side, on a box of 5 cells, is not a grid point for the interpolator: a cell holding 2^60 next to a zero cell makes the value at that zero cell 512.
* C97: the order check comes after the conversion, so (1 + 2^-30, 1, 2) is accepted; a positive eigenvalue 2^-151 is not counted against threshold 0; in a box of side 2^-150 the float32 grid points of all knots collapse onto the origin and are classified as its void.
* C98: with all neighbours 40 Gaussian widths away the mean is NaN, not the fill value; there the masked fraction is 0 whatever the mask; a Gaussian of width 2^-600 is NaN at distance 0.
* C99: a bin that has reached 2^53 counts no further; weights 2^53, 1, 1 leave 2^53 but 1, 1, 2^53 leave 2^53 + 2.
* C100: where the kernel is zero at all neighbours, as for the Gaussian beyond 40 widths, the estimate is NaN instead of 0; if all nearest neighbours coincide with the query point the estimate is infinite.
* C101: where all k neighbours coincide with the query point the density is infinite instead of an error.
