# Formal model of galaxy-chop in Rocq (Coq 8.16.1)

## Approach

The Python (and one Fortran) source is transcribed function by function to Gallina
under `rocq/theories`. Each definition cites file and lines of /repo.

* **Numbers.** Every function is parametric in a record `Num` of operations
  (`+ - * /`, sqrt, abs, rint, comparison with NaN, infinities, ceil, sum).
  Instances: `F64` = Flocq's IEEE-754 binary64 with round to nearest even (bit
  exact; one NaN, and `-0` distinct from `0`), `F32` = binary32 (the cast done by
  `potential`), and `RX` = real numbers extended with +inf, -inf, NaN (exact
  arithmetic). Theorems that need algebra are stated on `RX`. Theorems that must
  survive rounding are stated for every `N` with a record `Rounded N`: a value map
  to `RX` under which each operation is the exact one followed by a monotone,
  idempotent rounding that is exact on small integers. The record is *built* (not
  assumed) for `RX`, binary32 and binary64 with an arbitrary `np.sum` (`F64s sm`,
  `F32s sm`), so these theorems have instances.
* **Exceptions** are values (`res A := Ok a | Raise e`).
* **numpy / pandas** operations used by the code are modelled in `Np.v` and `Df.v`
  (broadcast, masks, fancy scatter, argmin, histogram, interp, round, linspace,
  arange, DataFrame constructor, concat, column selection).
* **Nondeterminism is an explicit argument**: uninitialised memory, sort tie
  breaking, random draws, scikit-learn results, thread interleavings, time stamps.

## Trusted base

* Coq's kernel (coqc, vm_compute for examples).
* For every property theorem `Print Assumptions` is run in the `Prop_*.v` files.
  Those that mention `F64`/`RX` list only standard-library axioms:
  `ClassicalDedekindReals.sig_not_dec`, `ClassicalDedekindReals.sig_forall_dec`,
  `FunctionalExtensionality.functional_extensionality_dep`,
  `Classical_Prop.classic`. No axiom is added here.
* The reading of the Python source, numpy, pandas, astropy/h5py, attrs/uttrs
  and OpenMP semantics written in comments next to each definition.

## Modelled / not modelled

Modelled: `data.py`, `io.py`, `utils/_center.py`, `utils/_align.py`,
`utils/_potential.py`, `utils/fortran/potential.f95`, `utils/_circ.py`,
`models/*.py`, the data part of `plot.py`, `tools/checkheader.py`, the programs under
`resource/`, version and extension of `setup.py`.

Physical units are modelled in `Units.v` only; the other files take values in the default
units, which C69 justifies.

Not modelled: drawing by matplotlib/seaborn, HDF5 byte layout, the inside
of scikit-learn fits, warnings, dataset download helpers, the
doc-inheritance helper, and the
preprocessing of integer or float32 inputs (all stored arrays are taken as binary64).

What is assumed of the libraries, file by file (each is also a comment in the model):

| model file | assumption or simplification |
|---|---|
| `Np.v`, `Df.v` | 1-D arrays are lists; a data frame is an ordered list of columns with a RangeIndex. Label arrays are plain arrays (no pandas alignment by index). |
| `F64.v` | `np.sum` is an argument (any order); the default instance adds from left to right. `x ** 2` is `x * x`. |
| `Data.v` | ASCII strings; keyword arguments are association lists with distinct keys. |
| `Dgemm.v` | an entry of `np.dot` is the sum of the three products in any order and grouping, each product rounded or fused into a sum, sums with zero and a factor one allowed; equal calls may differ. |
| `Fma.v` | contractions are a function of the pair of particles; soft ** 2 may be fused too. |
| `Potential.v` | no fused multiply-add (see `Fma.v`); `epot * G` stays float32 (numpy 1 promotion); float32 results are stored as the equal float64 values; `G` is a parameter. The uninitialised diagonal and zero-distance entries of the numpy backend are a function `junk`. |
| `Resource.v` | text files are lists of numbers; the OpenMP loop also as interleaved tasks on the shared array, with steps being single reads and writes (sequential consistency). |
| `PotConc.v` | each outer OpenMP iteration is a task; any unfinished task may take the next read or write of `pe`. This over-approximates every schedule clause and number of threads. |
| `Circ.v` | `np.argsort` (quicksort) is any sorting permutation, possibly a different one per call. |
| `Base.v` | hyper-parameters are None, bool, int, float, str, enum members, tuples, other sequences or other objects; numpy arrays as hyper-parameters are left out. |
| `Unique.v` | the sort inside `np.unique` is any function that sorts; the text of an array is an argument; both treatments of NaN (NumPy before and since 1.21) are covered. |
| `Ctor.v` | what attrs generates (`__init__`, `__eq__`, collection of fields without `collect_by_mro`) and the method resolution orders are written out by hand; accepted seeds, equality and `repr` of values are arguments. |
| `Units.v` | uttrs: a bare value gets the default unit, a Quantity keeps its own, its unit must be equivalent to the default one, `arr_` converts to the default unit (`to_value`). Conversion between units is an argument; converting to the same unit is the identity. Dimensionless quantities as softening are left out. |
| `Equal.v` | `==` and `hash` as attrs generates them, on objects with identities; quantities by their values in the default units; 2-D arrays of unequal shapes count as not broadcasting. |
| `Threshold.v` | `np.empty` is an arbitrary function of the position. |
| `Hist.v` | the generator is a state and a function `choice` that draws `k` distinct members. |
| `Mixture.v` | scikit-learn's estimators and joblib's completion order are arguments; NaN dictionary keys are compared by value, not by identity. |
| `Io.v` | an HDF5 file is a store of named objects and attributes; a write is a sequence of steps (delete, create, attributes), any of which may fail. astropy stores a column with missing values together with a mask column. Files are taken as opened and arrays as loaded. |
| `Plot.v` | seaborn is an oracle: the model ends at the call it gets. |
| `Setup.v` | uniform line endings in the theorems; building and loading the module is a boolean. |
| `Header.v` | texts are lists of code points, as decoded. |

### Function by function

Every function of the code and the definitions that model it.  Num, RX, F64 (arithmetic), Py, Np, Df
(Python, numpy and pandas) model the language and libraries; Ex holds helpers of the examples; the
definitions inside the proof files (AlAccRot, AlAccSum, UnitChain, UnitPot and the Facts and Thms files)
are part of proofs, not of the model.

| code | lines | model |
|---|---|---|
| galaxychop/data.py: ParticleSetType.mktype | 42-52 | Data.mktype |
| galaxychop/data.py: ParticleSetType.humanize | 54-56 | Data.humanize |
| galaxychop/data.py: ParticleSet (attributes, defaults, lengths) | 59-195 | Data.mk_pset, Data.kinetic_default, Data.total_default, Data.cross_default, Data.same_lengths; with units Units.u_mk_pset; comparison Equal.set_fields |
| galaxychop/data.py: ParticleSet.angular_momentum_, __repr__, __len__ | 199-216 | Ctor.pset_angular, Ctor.pset_repr, Data.plen |
| galaxychop/data.py: ParticleSet.to_dataframe | 220-270 | Data.column_makers, Data.pset_to_df |
| galaxychop/data.py: Galaxy (attributes, defaults, types) | 278-334 | Data.mk_galaxy, Units.u_mk_galaxy; comparison Equal.galaxy_eq |
| galaxychop/data.py: Galaxy.__len__, __repr__ | 336-346 | Data.glen, Ctor.galaxy_repr |
| galaxychop/data.py: Galaxy.to_dataframe | 350-380 | Data.to_df |
| galaxychop/data.py: Galaxy.to_hdf5, Galaxy.plot | 382-416 | only the functions they hand over to: Io.to_hdf5, Plot.plot_call |
| galaxychop/data.py: Galaxy.kinetic_energy_, potential_energy_, total_energy_, angular_momentum_ | 420-534 | Data.kinetic_energy_, Data.potential_energy_, Data.total_energy_, Ctor.galaxy_angular; with units Units.u_kinetic_energy_ and so on |
| galaxychop/data.py: galaxy_as_kwargs | 542-570 | Data.galaxy_as_kwargs, Units.u_as_kwargs |
| galaxychop/data.py: mkgalaxy | 573-682 | Data.mkgalaxy, Units.u_mkgalaxy |
| galaxychop/io.py: _table_to_dict, _df_to_table | 54-63 | Io.table_to_dict, Io.df_to_table |
| galaxychop/io.py: read_hdf5 | 71-121 | Io.read_hdf5 |
| galaxychop/io.py: to_hdf5 | 124-175 | Io.to_hdf5 with faults at any operation |
| galaxychop/io.py: read_npy | 183-269 | Io.read_npy |
| galaxychop/models/_base.py: Components | 41-132 | Base.mk_components, Base.c_len, Unique.components_repr, Base.comp_to_df, Equal.comp_fields |
| galaxychop/models/_base.py: hparam, __init_subclass__, abstract methods, __repr__ | 140-295 | Ctor.hparam, Ctor.subclass, Ctor.abstract, Ctor.construct, Ctor.instance_repr |
| galaxychop/models/_base.py: _bins_validator | 188-196 | Base.bins_validator, Ctor.valid_bins |
| galaxychop/models/_base.py: _get_jcirc_df, attributes_matrix | 299-403 | Base.get_jcirc_df, Base.attributes_matrix |
| galaxychop/models/_base.py: complete_labels, complete_probs | 405-485 | Base.complete_labels, Base.complete_probs |
| galaxychop/models/_base.py: decompose | 487-531 | Base.decompose |
| galaxychop/models/_base.py: DynamicStarsDecomposerMixin.get_rows_mask | 546-558 | Base.stars_mask |
| galaxychop/models/_threshold.py: JThreshold | 80-123 | Base.check_eps_cut, Threshold.jthreshold_split, Threshold.jthreshold |
| galaxychop/models/_histogram.py: JHistogram | 64-184 | Hist.make_histogram, Hist.make_count_sph, Hist.make_corot_sph, Hist.make_disk, Hist.hist_split, Hist.jhistogram |
| galaxychop/models/_histogram.py: JEHistogram | 221-399 | Hist.pick_energy, Hist.jehistogram |
| galaxychop/models/_kmeans.py: KMeans | 74-117 | Mixture.km_kwargs, Mixture.kmeans; the fit of scikit-learn is a parameter |
| galaxychop/models/_gaussian_mixture.py: GaussianMixture | 70-174 | Mixture.gm_kwargs, Mixture.gaussian_mixture; the fit of scikit-learn is a parameter |
| galaxychop/models/_gaussian_mixture.py: AutoGaussianMixture | 223-319 | Mixture.try_components, Mixture.choose_number, Mixture.group_step, Mixture.auto_split, Mixture.auto_gaussian_mixture; any interleaving of the parallel jobs |
| galaxychop/plot.py: GalaxyPlotter.__call__ | 44-70 | Plot.plot_call |
| galaxychop/plot.py: get_df_and_hue, get_circ_df_and_hue | 74-126, 292-368 | Plot.get_df_and_hue, Plot.get_circ_df_and_hue |
| galaxychop/plot.py: pairplot, scatter, hist, kde and their circ_ versions | 128-288, 370-562 | Plot.pairplot ... Plot.circ_kde; seaborn is a parameter |
| galaxychop/utils/_align.py: _make_mask, _get_rot_matrix | 26-86 | Align.make_mask, Align.get_rot_matrix |
| galaxychop/utils/_align.py: star_align | 89-172 | Align.star_align; other orders of summation and fused operations: Dgemm |
| galaxychop/utils/_align.py: is_star_aligned | 175-207 | Align.is_star_aligned |
| galaxychop/utils/_center.py: center | 26-78 | Center.center |
| galaxychop/utils/_center.py: is_centered | 81-109 | Center.is_centered |
| galaxychop/utils/_circ.py: JCirc | 32-106 | Circ.circularity_attributes, Circ.jc_dict, Circ.jc_isfinite |
| galaxychop/utils/_circ.py: _jcirc | 109-232 | Circ.bin_edges, Circ.bin_point, Circ.curve, Circ.jcirc_cols |
| galaxychop/utils/_circ.py: jcirc | 235-296 | Circ.jcirc |
| galaxychop/utils/_potential.py: fortran_potential, numpy_potential | 49-103 | Potential.fortran_potential, Potential.numpy_potential, Fma.contracted_potential |
| galaxychop/utils/_potential.py: potential | 117-177 | Potential.potential; the default backend: Setup.potential_default |
| galaxychop/utils/fortran/potential.f95: fortran_potential | 16-59 | Potential.fortran_kernel, and with threads PotConc.parallel_run |
| galaxychop/utils/_decorators.py: doc_inherit | 26-48 | not modelled: it only joins documentation strings |
| setup.py: version, extensions | 36-41, 72-93 | Setup.version, Setup.extensions |
| tools/checkheader.py: lines_rstrip, check_file_header | 37-52 | Header.lines_rstrip, Header.check_file_header |
| tools/checkheader.py: CLI.check | 91-151 | Header.check_one, Header.check_all |
| tools/checkheader.py: CLI._set_run_default, CLI.version, main | 75-89, 154-157 | not modelled: set-up of the command line |
| resource: potential_test.f90, potential.f90, potential_TNG.f90 | all | Resource.test_program, Resource.old_program, Resource.tng_program |

## Files

`X.v` is the model of a source file, `SpecX.v` the vocabulary of the statements,
`XFacts.v` lemmas, `XThms.v` the proofs and examples, `Prop_X.v` the property theorems
(`Cnn_...`) with their examples (`EX_Cnn...`) and `Print Assumptions`.

## Claims that turned out to be false of the code

Each has a theorem or a witness (`..._refuted` where the first wording was disproved)
beside the corrected statement:
C17 (aligning twice destroys x and y), C21 (numpy backend depends on uninitialised
memory), C23 (softening of one set is used for all), C27 (negative bins), C30 (unbound
star before a bound one), C32 (populated bins deleted), C37 (misaligned attribute
matrix), C40 (NaN cut leaves labels uninitialised), C43 (even bins), C44 (second call
differs), C46 (zero energy fails), C48 (no candidate), C50 (NaN cannot be read back),
C52 (writing is not atomic), C56 (empty frame accepts any labels), C57 (planar galaxy
draws NaN rows), C58 (an old file removes potentials), C59 (template ending in a blank
line, form feeds), C61 (centring after aligning undoes it), C84 (far from the origin single precision merges
particles), C85 (values on a bin edge), C86 (summation order), C87 (softenings are not
stored), C88 (equal contents do not compare equal).

## Plan per property

| id | property | how |
|---|---|---|
| C01 | Particle type coercion | Py values as an inductive type; mktype transcribed; case analysis. |
| C02 | ParticleSet accepts exactly equal-length inputs | ParticleSet constructor with numpy broadcasting of the eager derived attributes followed by the length check; induction on lists. |
| C03 | Derived energies and angular momentum are per particle | nth of the derived lists, generic in the number type; algebra by `nra/ring` on the exact-real instance. |
| C04 | Galaxy construction checks | Galaxy constructor transcribed with exceptions as values; case analysis. |
| C05 | galaxy_as_kwargs / mkgalaxy round trip | kwargs as association list; round trip by computation and C02. |
| C06 | Galaxy data frame rows follow stars, dark matter, gas | data-frame model (ordered columns of cells), concat and filter; nth/app lemmas. |
| C07 | Data frame columns are the requested attributes | same model; ordered-dict insertion; scalar-only DataFrame constructor error. |
| C08 | Potential is a precondition of centring | transcription of center / is_centered. |
| C09 | center is a pure translation of positions | center goes through data frame, argmin, row filter by type; proved equal to map (x - x0) per set, generic number type. |
| C10 | center puts the lowest-potential particle at the origin | x-x=0 for finite x in every `Rounded` arithmetic. |
| C11 | center is idempotent bit for bit | x-0=x law, argmin depends on potentials only; binary64. |
| C12 | center is translation invariant and keeps relative positions | exact-real instance. |
| C13 | star_align frame and argument check | transcription of star_align; generic frame lemma. |
| C14 | The alignment matrix is a proper rotation | exact reals, field/nsatz on the explicit matrix. |
| C15 | star_align aligns the stars with +z | linearity of the sum of cross products under rotation; exact reals. |
| C16 | star_align is an isometry of phase space | orthogonality; exact reals. |
| C17 | star_align destroys galaxies that have no in-plane angular momentum | 0/0=NaN and NaN absorbing in every `Rounded` arithmetic. |
| C18 | is_star_aligned means what it says | exact reals, sqrt inequality. |
| C19 | potential: guard, frame and distribution | transcription of potential with backend oracle, slices firstn/skipn. |
| C20 | Fortran backend computes the pairwise softened potential for every thread schedule | small-step interleaving semantics of the OpenMP loop over threads, invariant by induction over steps. |
| C21 | numpy backend agrees with the pairwise sum only up to uninitialised memory | uninitialised memory as an explicit oracle argument. |
| C22 | Potential energy sign and symmetries | exact reals. |
| C23 | Softening used by potential | max over data-frame rows (skipna). |
| C24 | Circularity is bounded | final filter of _jcirc; comparison laws. |
| C25 | Normalised energy and angular momentum are bounded | binary64 division bound law. |
| C26 | Unbound stars get no circularity | transcription with boolean masks. |
| C27 | The circular-angular-momentum curve is well formed | binning loop; strict monotonicity through bin separation; arange edges. |
| C28 | Curve points come from bound particles | argsort as any sorting permutation. |
| C29 | jcirc error behaviour | transcription of error paths. |
| C30 | jcirc fails when an unbound star precedes a bound one | scatter with out-of-range index. |
| C31 | Lengths of the jcirc arrays | length lemmas. |
| C32 | Empty intermediate energy bins can delete populated bins | transcription of the if/else; witness by computation on binary64 plus general theorem. |
| C33 | Circularity ignores masses and softening and is invariant under rotation about z | jcirc factors through (ptype, E, J); rotation about z keeps E, Jz, Jx^2+Jy^2 on exact reals. |
| C34 | eps is Jz over interpolated Jcirc; eps_r is rescaled | exact reals algebra with interp. |
| C35 | Decomposition output is aligned with the galaxy | decompose over an abstract decomposer record. |
| C36 | Labels reach exactly the selected particles in order | mask scatter lemmas. |
| C37 | The attribute matrix describes the right particle | column concat / reindex lemmas. |
| C38 | Components construction | constructor model. |
| C39 | Hyper-parameter validation | validators over Py values. |
| C40 | JThreshold rule end to end | composition of jcirc, attributes_matrix, mask, split; uninitialised memory oracle. |
| C41 | JHistogram labels every particle exactly once | bins, monotone rounding; RNG oracle returning k distinct members. |
| C42 | JHistogram spheroid composition | counting lemmas. |
| C43 | JHistogram needs a zero edge | rounding of linspace edges; exact characterisation. |
| C44 | Randomised decomposers: reproducibility | state-passing RNG; witness for non repeatability. |
| C45 | JEHistogram labels every particle exactly once | as C41 with nested energy histogram. |
| C46 | JEHistogram can fail on zero-energy stars | witness by computation + general theorem. |
| C47 | AutoGaussianMixture grouping | fold of column sums; exact reals for conservation. |
| C48 | AutoGaussianMixture model selection | completion order as permutation; min over mask; exact reals for existence. |
| C49 | Mixture and k-means wrappers pass data through | scikit-learn as arbitrary oracle recording its arguments. |
| C50 | HDF5 round trip | file = map path -> table plus attributes. |
| C51 | The last write wins | fold over histories. |
| C52 | to_hdf5 is not atomic | prefixes of the write sequence. |
| C53 | HDF5 metadata precedence | dict update lemmas. |
| C54 | Reading named columns | table from matrix and names; permutation lemma. |
| C55 | Plot dispatch | string prefix dispatch. |
| C56 | Plot data frame and hue | transcription over the data-frame model. |
| C57 | Circularity plots pair labels with the right stars | two-filter alignment lemma. |
| C58 | Galaxy invariants survive every pipeline | inductive relation over operation sequences. |
| C59 | Header checker | line-list model of the tool. |
| C60 | Plot methods hand seaborn complete data | the call (frame, x, y, hue, options) is the result of the model. |
| C61 | Centring and aligning together | rotation fixes the origin in every `Rounded` arithmetic; exact reals for the alignment; witness for the other order. |
| C62 | The potential does not depend on position and orientation | softened distances are invariant; exact reals. |
| C63 | Accuracy of the single-precision potential | standard model of rounding proved for both formats (Flocq); factors (1-u)^k counted through the loop; inputs in a stated range. |
| C64 | Accuracy of energies and angular momentum | same counting; rounding of tiny results bounded through monotonicity. |
| C65 | Decomposers are constructed from documented keyword hyper-parameters | fields collected along the bases compared with a table per class; what an instance holds is unique. |
| C66 | Equality of decomposers made with equal arguments | generators are compared by identity; new ones get new identities. |
| C67 | Printed forms and angular momentum arrays | decimal printing is injective and contains no comma. |
| C68 | Accuracy of the alignment in floating point | absolute errors relative to a scale carried through totals, matrix, turned coordinates and the final comparison; the exact rotation of the computed total is the reference. |
| C69 | Units of the arguments do not matter | conversion commutes with construction, `galaxy_as_kwargs` and `dict.update`, so every function of the form "read values, compute arrays, rebuild" is covered by one lemma. |
| C70 | Stored units | each stored attribute is read off the keyword dictionary it came from; witnesses for the two wrong statements in the documentation. |
| C71 | Accuracy of the centring in floating point | error of one subtraction of two doubles (no underflow, exact within a factor of two), monotone rounding for the order; witnesses with 2^53 for the two failures. |
| C72 | The circularity does not depend on the order of the particles | the specification of the points (C28) determines them uniquely up to permutation when there are no ties; maxima and minima are permutation invariant bit for bit; witness with two dark matter particles exchanged. |
| C73 | Symmetries of the circularity | a relation between rows (same energy, Jz equal or opposite) carried through every step of _jcirc; the curve depends on |Jz| only; quotients of scaled numbers are equal. |
| C74 | Stars on the circular curve have circularity exactly 1 or -1 | strictly increasing abscissae (C27) make the segment search stop at the node, where the ordinate is returned unchanged; x/|x| is exact. |
| C75 | What the labels of a decomposition do not depend on | factor the matrix of attributes through jcirc, then C33, C72, C73 and the rule of C40. |
| C76 | The decomposition of a centred and aligned galaxy does not depend on the axes and the origin | after the alignment Jz of a particle is its angular momentum along that of the stars, an inner product, which orthogonal matrices keep; then C75. |
| C77 | The printed form of a decomposition names exactly the labels in use | np.unique is modelled as NumPy writes it (sort, heads of runs, NaN tail); heads of runs of a sorted list are strictly increasing. |
| C78 | The mirror of a bin is its reflection around zero | If bin0 is not the middle edge, reflection makes the rounded edges periodic, which monotonicity excludes; rounding half to even is odd. |
| C79 | The spheroid of the histogram decompositions has almost no net rotation | The bins partition the particles; sums over mirrored pairs of bins are bounded by the bin width. |
| C80 | Accuracy of the circularity in floating point | Rounding error of np.interp from the Flocq relative error bounds; consecutive points of the curve are at least 2^-900 apart, so that no slope overflows. |
| C81 | Stars are discarded and classified as in exact arithmetic, up to a margin | C80's error bounds, for every bound star before the out-of-range stars are removed, with the end-to-end rule of C40. |
| C82 | The spheroid of a decomposed galaxy has almost no net rotation, in floating point | C79 without the exact arithmetic (default bins) and carried from split to decompose. |
| C83 | AutoGaussianMixture in floating point: shares, labels and number of Gaussians | Relative error of the fold of column sums; the mean of five and one subtraction. |
| C84 | Accuracy of the potential of the galaxy as given | C63 plus the error of the conversion to float32. |
| C85 | Histogram decompositions in floating point are those of exact arithmetic | Floating-point edges order the data as the exact edges do. |
| C86 | Accuracy of the numpy potential backend | The same error analysis for the numpy backend and any summation tree. |
| C87 | A stored galaxy is analysed like the original | The HDF5 round trip composed with centring, aligning and decomposing. |
| C88 | What == says about galaxies and decompositions | attrs' == and hash on objects with identities; characterisation by lengths. |
| C89 | The stand-alone Fortran programs agree with the package | Reference programs as loops; error analysis of C63 in double precision; x + 0 = x for squares in IEEE arithmetic; interleavings simulated by independent local runs. |
| C90 | Version, Fortran module and default backend of an installation | Lines of the file as in C59; first match by induction over the lines; backends by C19. |
| C91 | Accuracy of the potential when the compiler fuses multiplications and additions | Each of the three sums of the distance as a step that fuses or not; one rounding fewer never exceeds the bound of C63; Flocq's Bfma_correct. |
| C92 | Energies of a whole galaxy | From the record produced by the constructors (C03), the frame lemma of C06, C09 and C22; double counting over the list of particles. |
| C93 | Accuracy of centring and aligning one after the other | The shift is a further small displacement before C68; a vector close to the axis gives components close to the projections (Cauchy-Schwarz). |
| C94 | Alignment with any matrix product | Induction over the ways to compute a sum of products: each adds at most two units of rounding per product; the rest is C68 and C93 with that bound. |
| C95 | Which particle is the centre, and infinite or missing values | Invariant of the argmin loop: the best so far is strictly below everything before it. |
| C96 | The computed circular curve and the labels against the exact ones | Ratios are compared by cross multiplication, so the same body is chosen in each bin; two polygons with close corners and slopes at most 1/a have close values. |
| C97 | The labels of the whole analysis against exact arithmetic | Chains C84/C86/C91, C93/C94, the rounding of the energy and C96; success from C30 and C40. |
| C98 | Widths of the energy bins that the circular curve accepts | Kinds of widths decide the length computed by arange (rounded quotient against representable bounds); errors before the curve. |
| C99 | The histogram decompositions of the whole analysis against exact arithmetic | Chains C97's error bounds with C85: settled stars fall in the same cell of the computed and the exact edges, so both splits draw the same; the counts then come from the exact split. |
| C100 | Units that are powers of two change no bit of the result | A relation between binary64 numbers (`shifted`) is carried through every operation of centring, alignment and circularities, together with the grid each value lies on, which excludes underflow; the normalised quantities are then equal and C75's factorisation gives the labels. |
| C101 | The whole analysis in units that are powers of two, potentials in single precision included | Extends C100's relation to binary32 and the conversions; ranges are tracked through distances, quotients and sums. |
| C102 | Motion of the galaxy as a whole | Extends C76: the frames of reference in relative motion. |
| C103 | The whole analysis with a cut-off radius in the alignment | The cut-off radius of star_align in the whole analysis (C93, C97, C99 had none). |
| C104 | The matrix given to the mixture models against exact arithmetic | What the mixture models are given at the end of the whole analysis (C97, C99 and C103 are about the other decomposers). |
| C105 | Histogram decompositions with other numbers of bins in floating point | C85 for other numbers of bins and digits. |
| C106 | Particles that decide nothing in jcirc | Particles that decide nothing leave jcirc as it was. |
| C107 | The histogram decompositions of the whole analysis with other numbers of bins | Histogram decompositions of the whole analysis, other numbers of bins. |
| C108 | The labels of the whole analysis do not depend on the order of the particles, the backend or the platform | Two analyses of the same particles: order, backend and platform. |
| C109 | A mirror image or the reversal of all motion does not change a single label of the whole analysis | Mirror images and reversed motion, bit for bit, from the potential to the labels. |
| C110 | The axes and the origin in which a galaxy is given do not decide the labels of the whole analysis in floating point | The whole analysis of one galaxy in two systems of axes with two origins, in floating point. |
| C111 | JEHistogram in the whole analysis shares the stars of each circularity cell and energy bin as in exact arithmetic | JEHistogram in the whole analysis, cell by cell and energy bin by energy bin. |
| C112 | Whether a particle that is not a star is dark matter or gas does not matter | The division of the other particles into dark matter and gas does not matter. |
| C113 | Massless particles that escape leave no trace | Massless particles that are not bound leave no trace in the analysis of the stars. |
| C114 | JThreshold, JHistogram and JEHistogram compared on one galaxy | The three histogram and threshold decomposers compared on one galaxy: who is classified, counter-rotating stars, sizes of the spheroid. |
| C115 | Finer bins never give JHistogram a larger spheroid, if they subdivide the coarser ones | JHistogram with nested numbers of bins: finer bins, no larger spheroid. |
| C116 | The number of energy bins of JEHistogram | JEHistogram with nested numbers of energy bins, and with a single one against JHistogram. |
| C117 | The tolerance c_bic of AutoGaussianMixture | The number of Gaussians as a function of c_bic, and when the good enough numbers are an interval. |
| C118 | Heavier surroundings or a smaller softening never raise a computed potential | Monotonicity of the computed potential in masses, particles and softening. |
| C119 | Cut-off radii of star_align that select the same stars | Cut-off radii of star_align that select the same stars; overflow of the distance. |
| C120 | JHistogram and JEHistogram on some stars and on more stars | The two split methods on a set of stars and on a larger one; a counterexample for JEHistogram. |
