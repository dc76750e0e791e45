{"id": "C01", "title": "Particle type coercion", "statement": "ParticleSetType.mktype is the identity on members, inverts .value, .name and .humanize(), ignores letter case, and raises ValueError on every other value (None, other integers, other strings, including digit strings).", "quantifier": "every Python value of kind None/bool/int/float/str/member, every string", "why_tests_cant": "the domain of strings and numbers is infinite; a test tries a handful", "anchors": ["galaxychop/data.py:ParticleSetType.mktype", "galaxychop/data.py:ParticleSetType.humanize"]}
{"id": "C02", "title": "ParticleSet accepts exactly equal-length inputs", "statement": "Constructing a ParticleSet succeeds iff m,x,y,z,vx,vy,vz (and potential when given) all have the same length; otherwise ValueError, even for the length-1 arrays numpy would broadcast. On success the inputs are stored unchanged and every derived array has that same length.", "quantifier": "every choice of the eight arrays, of any lengths, every particle type and softening", "why_tests_cant": "broadcasting makes a few length combinations special; tests remove one element from one array at one size", "anchors": ["galaxychop/data.py:ParticleSet.__attrs_post_init__", "galaxychop/data.py:ParticleSet"]}
{"id": "C03", "title": "Derived energies and angular momentum are per particle", "statement": "For particle i of any constructed set: kinetic_energy_ = 0.5*(vx^2+vy^2+vz^2), total_energy_ = kinetic + potential (absent without potential), J = r x v, computed in exactly the documented operation order from particle i alone; in exact arithmetic J is orthogonal to r and v and kinetic energy is non-negative.", "quantifier": "every particle set, every particle index, every arithmetic (binary64 and exact reals)", "why_tests_cant": "needs all indices of all arrays of all sizes, including non-finite values", "anchors": ["galaxychop/data.py:_kinetic_energy__default", "galaxychop/data.py:_total_energy__default", "galaxychop/data.py:_Jx__default"]}
{"id": "C04", "title": "Galaxy construction checks", "statement": "Galaxy(stars,dark_matter,gas) raises ValueError iff some but not all sets carry a potential, raises TypeError iff potentials are uniform and some set is in the wrong slot, and otherwise succeeds with has_potential_ equal to that of every set. mkgalaxy never raises TypeError for well-named arguments.", "quantifier": "every triple of particle sets", "why_tests_cant": "8 potential combinations times 27 type combinations times arbitrary contents", "anchors": ["galaxychop/data.py:Galaxy._has_potential__default", "galaxychop/data.py:Galaxy.__attrs_post_init__", "galaxychop/data.py:mkgalaxy"]}
{"id": "C05", "title": "galaxy_as_kwargs / mkgalaxy round trip", "statement": "mkgalaxy(**galaxy_as_kwargs(g)) rebuilds a galaxy equal to g in every stored and derived attribute.", "quantifier": "every constructible galaxy (any sizes, empty sets included, with or without potential)", "why_tests_cant": "tests compare single fixed-seed galaxies, and only the dictionary, not the rebuilt object", "anchors": ["galaxychop/data.py:galaxy_as_kwargs", "galaxychop/data.py:mkgalaxy"]}
{"id": "C06", "title": "Galaxy data frame rows follow stars, dark matter, gas", "statement": "galaxy.to_dataframe() has len(galaxy) rows: the stars first, then dark matter, then gas, each in stored order; row k of a block carries attribute values of particle k of that set; a ptypes filter keeps exactly the named blocks in that same order irrespective of the order in ptypes, and raises ValueError when no block is selected.", "quantifier": "every galaxy, every ptypes selection, every row index, every attribute", "why_tests_cant": "alignment between rows and particles must hold for every size, including empty sets", "anchors": ["galaxychop/data.py:Galaxy.to_dataframe", "galaxychop/data.py:ParticleSet.to_dataframe"]}
{"id": "C07", "title": "Data frame columns are the requested attributes", "statement": "to_dataframe(attributes=a) yields exactly the requested columns in first-request order with duplicates collapsed, KeyError on an unknown name, all sixteen columns when a is None; requesting only scalar attributes (softening, or potential/total_energy of a galaxy without potential) raises ValueError.", "quantifier": "every list of attribute names, every particle set", "why_tests_cant": "attribute lists are unbounded and the scalar-only corner depends on has_potential", "anchors": ["galaxychop/data.py:ParticleSet.to_dataframe"]}
{"id": "C08", "title": "Potential is a precondition of centring", "statement": "center and is_centered raise ValueError on every galaxy without potential; on a galaxy with potential and at least one particle both return normally; on an empty galaxy both raise ValueError.", "quantifier": "every galaxy", "why_tests_cant": "two fixtures exercise two galaxies", "anchors": ["galaxychop/utils/_center.py:center", "galaxychop/utils/_center.py:is_centered"]}
{"id": "C09", "title": "center is a pure translation of positions", "statement": "center(g) subtracts one common offset, the position of the particle of lowest potential, from the position of every particle of every type, and changes nothing else: masses, velocities, potentials, softenings, kinetic and total energies, counts, order and types are identical.", "quantifier": "every galaxy with potential, every particle, every arithmetic including NaN and infinities", "why_tests_cant": "frame conditions quantify over every attribute of every particle", "anchors": ["galaxychop/utils/_center.py:center"]}
{"id": "C10", "title": "center puts the lowest-potential particle at the origin", "statement": "If the positions of the lowest-potential particle are finite then after center(g) that particle sits exactly at (0,0,0) bit for bit, no particle has a lower potential, and is_centered(center(g)) is True for every non-negative rtol and atol.", "quantifier": "every galaxy with potential, every tolerance", "why_tests_cant": "floating-point subtraction must be exact for every value", "anchors": ["galaxychop/utils/_center.py:center", "galaxychop/utils/_center.py:is_centered"]}
{"id": "C11", "title": "center is idempotent bit for bit", "statement": "center(center(g)) equals center(g) exactly (binary64 equality of every stored number) whenever the lowest-potential particle has finite coordinates.", "quantifier": "every galaxy with potential", "why_tests_cant": "needs every binary64 value", "anchors": ["galaxychop/utils/_center.py:center"]}
{"id": "C12", "title": "center is translation invariant and keeps relative positions", "statement": "In exact arithmetic the separation vector between any two particles is unchanged by center, and translating all particles by any vector before centring gives the same centred galaxy.", "quantifier": "every galaxy with potential, every pair of particles, every translation", "why_tests_cant": "infinite families of inputs", "anchors": ["galaxychop/utils/_center.py:center"]}
{"id": "C13", "title": "star_align frame and argument check", "statement": "star_align raises ValueError when r_cut is given and <= 0; otherwise it returns a galaxy with the same masses, softenings, potentials, counts and types, whose positions and velocities are all multiplied by one common 3x3 matrix that depends only on stars within r_cut.", "quantifier": "every galaxy, every r_cut, every arithmetic", "why_tests_cant": "frame conditions over all attributes and particles", "anchors": ["galaxychop/utils/_align.py:star_align", "galaxychop/utils/_align.py:_get_rot_matrix"]}
{"id": "C14", "title": "The alignment matrix is a proper rotation", "statement": "When the x or y component of the mass-weighted angular momentum of the selected stars is non-zero, the matrix used by star_align is orthogonal with determinant +1 (exact arithmetic).", "quantifier": "every star set, every r_cut", "why_tests_cant": "algebraic identity over all reals", "anchors": ["galaxychop/utils/_align.py:_get_rot_matrix"]}
{"id": "C15", "title": "star_align aligns the stars with +z", "statement": "Under the same condition the mass-weighted angular momentum of the stars within r_cut of the new galaxy is (0,0,|J|): the same stars are selected before and after, and is_star_aligned(star_align(g,r_cut),r_cut) is True for all non-negative tolerances (exact arithmetic).", "quantifier": "every galaxy whose selected stars have in-plane angular momentum, every r_cut", "why_tests_cant": "identity over all reals and all star counts", "anchors": ["galaxychop/utils/_align.py:star_align", "galaxychop/utils/_align.py:is_star_aligned"]}
{"id": "C16", "title": "star_align is an isometry of phase space", "statement": "Under the same condition star_align preserves every inter-particle distance, every radius and speed, every kinetic and total energy, and rotates every angular momentum vector by the same matrix (exact arithmetic).", "quantifier": "every galaxy, every pair of particles of any type", "why_tests_cant": "identity over all reals", "anchors": ["galaxychop/utils/_align.py:star_align"]}
{"id": "C17", "title": "star_align destroys the x and y components when there is no in-plane angular momentum", "statement": "If the selected stars' total angular momentum has x and y components equal to zero (already aligned, anti-aligned, no star within r_cut, or NaN r_cut) then the x and y components of the position and velocity of every particle returned by star_align are NaN, although is_star_aligned may have reported True; hence in exact arithmetic aligning the result of a successful alignment always yields NaN.", "quantifier": "every galaxy with zero in-plane stellar angular momentum, in binary64 and exact arithmetic", "why_tests_cant": "no test aligns an aligned galaxy", "anchors": ["galaxychop/utils/_align.py:_get_rot_matrix"]}
{"id": "C18", "title": "is_star_aligned means what it says", "statement": "In exact arithmetic is_star_aligned with tolerances rtol, atol returns True iff |Jz-|J|| <= atol + rtol*|J| for the selected stars; with zero tolerances, iff Jx=Jy=0 and Jz>=0; it never accepts a galaxy whose total J points to negative z beyond the tolerance.", "quantifier": "every galaxy, r_cut and tolerances", "why_tests_cant": "tolerance geometry over all reals", "anchors": ["galaxychop/utils/_align.py:is_star_aligned"]}
{"id": "C19", "title": "potential: guard, frame and distribution", "statement": "potential raises ValueError if the galaxy already has a potential and KeyError for an unknown backend; otherwise the result has_potential_, every other attribute unchanged, and the i-th value computed for the stars+dark matter+gas sequence ends in the i-th particle of that sequence; calling it again raises ValueError.", "quantifier": "every galaxy, every backend", "why_tests_cant": "index bookkeeping across three sets of arbitrary sizes", "anchors": ["galaxychop/utils/_potential.py:potential"]}
{"id": "C20", "title": "Fortran backend computes the pairwise softened potential for every thread schedule", "statement": "For every OpenMP schedule, thread count and interleaving of the inner loop steps, the Fortran kernel returns for each i the sum over j != i of m_j/sqrt(|r_i-r_j|^2+soft^2) accumulated in index order: the result is schedule independent and race free.", "quantifier": "every particle list, every interleaving of loop iterations", "why_tests_cant": "schedules cannot be enumerated by tests", "anchors": ["galaxychop/utils/fortran/potential.f95:fortran_potential"]}
{"id": "C21", "title": "numpy backend agrees with the pairwise sum only up to uninitialised memory", "statement": "The numpy backend equals the same pairwise sum if and when the entries skipped by np.divide(where=...) happen to hold zero and no two distinct particles have zero softened distance; since no out array is given those entries are uninitialised, so for every galaxy with at least one particle the result depends on memory contents (two memory states give two potentials); coincident particles without softening give +inf in Fortran and memory contents in numpy.", "quantifier": "every particle list, every content of uninitialised memory", "why_tests_cant": "memory contents are not under a test's control", "anchors": ["galaxychop/utils/_potential.py:numpy_potential"]}
{"id": "C22", "title": "Potential energy sign and symmetries", "statement": "In exact arithmetic, with positive masses, at least two particles and pairwise non-zero softened distances, every potential is strictly negative; it is invariant under translations of all particles, scales linearly with the masses, and reordering the particles reorders the potentials in the same way.", "quantifier": "every particle list, translation, scale and permutation", "why_tests_cant": "infinite symmetry families", "anchors": ["galaxychop/utils/_potential.py:numpy_potential", "galaxychop/utils/fortran/potential.f95"]}
{"id": "C23", "title": "Softening used by potential", "statement": "The softening length passed to the backend is the largest softening among the particle sets that have at least one particle (an empty set's softening is ignored), ignoring NaN.", "quantifier": "every galaxy without potential and with at least one particle", "why_tests_cant": "empty sets and NaN corners", "anchors": ["galaxychop/utils/_potential.py:potential"]}
{"id": "C24", "title": "Circularity is bounded", "statement": "Every value of eps returned by jcirc is NaN or lies in [-1,1]; wherever the raw circularity exceeded 1 in absolute value the star's energy, Jz, eps and eps_r are all NaN.", "quantifier": "every galaxy, every binning, binary64 and exact arithmetic", "why_tests_cant": "must hold for every float including infinities produced by zero divisions", "anchors": ["galaxychop/utils/_circ.py:_jcirc"]}
{"id": "C25", "title": "Normalised energy and angular momentum are bounded", "statement": "Every normalized_star_energy returned by jcirc is NaN or in [-1,0], every normalized_star_Jz is NaN or in [-1,1] (binary64, including rounding).", "quantifier": "every galaxy, every binning", "why_tests_cant": "rounding of every quotient", "anchors": ["galaxychop/utils/_circ.py:_jcirc"]}
{"id": "C26", "title": "Unbound stars get no circularity", "statement": "A star with total energy > 0, NaN or -inf has NaN normalized energy, eps and eps_r in the result of jcirc.", "quantifier": "every galaxy, every star", "why_tests_cant": "any star position in any galaxy", "anchors": ["galaxychop/utils/_circ.py:_jcirc"]}
{"id": "C27", "title": "The circular-angular-momentum curve is well formed", "statement": "The x,y arrays returned by jcirc have equal non-zero length, x starts at -1, is strictly increasing and stays below 0, so np.interp is well defined, whenever the computed bin edges start at -1 and never decrease; this holds in binary64 with the default bins and in exact arithmetic for every pair of positive bins. It fails in binary64 for bin0=0.03: the two edge ranges overlap and the same abscissa appears twice.", "quantifier": "every galaxy for which jcirc returns, every rounded arithmetic", "why_tests_cant": "tests look at one galaxy", "anchors": ["galaxychop/utils/_circ.py:_jcirc"]}
{"id": "C28", "title": "Curve points come from bound particles", "statement": "Every point (x,y) of the curve except the first is the normalised energy and |Jz| of one bound particle of any type, and within its energy bin at most one particle has a larger |Jz|; the first y is |Jz| of the most bound particle.", "quantifier": "every galaxy, every energy bin, every tie-breaking of the sort", "why_tests_cant": "sorting ties and bins of any population", "anchors": ["galaxychop/utils/_circ.py:_jcirc"]}
{"id": "C29", "title": "jcirc error behaviour", "statement": "jcirc raises ValueError on every galaxy without potential and on every galaxy with no bound particle.", "quantifier": "every galaxy and binning", "why_tests_cant": "tests try random seeds", "anchors": ["galaxychop/utils/_circ.py:_jcirc"]}
{"id": "C30", "title": "jcirc fails when an unbound star precedes a bound one", "statement": "If jcirc returns normally then the bound stars are a prefix of the star array; any galaxy with bound particles in which an unbound star precedes a bound star makes jcirc raise IndexError, because normalized_star_Jz is allocated with the number of bound stars.", "quantifier": "every galaxy with potential", "why_tests_cant": "the only real-data fixture has all stars bound", "anchors": ["galaxychop/utils/_circ.py:_jcirc"]}
{"id": "C31", "title": "Lengths of the jcirc arrays", "statement": "normalized_star_energy, eps and eps_r have one entry per star; normalized_star_Jz has one entry per bound star, so the four arrays have equal length iff every star is bound.", "quantifier": "every galaxy for which jcirc returns", "why_tests_cant": "fixtures have only bound stars", "anchors": ["galaxychop/utils/_circ.py:_jcirc", "galaxychop/utils/_circ.py:JCirc.isfinite"]}
{"id": "C32", "title": "Empty intermediate energy bins can delete populated bins", "statement": "When a bound particle lies above the last bin edge, every populated energy bin contributes a point to the curve (unless its energy is exactly 0). When none does, with e empty bins below the last edge, the last e-1 of those bins are dropped, populated or not, and the earlier populated ones kept: a circular orbit can then lose its own point and get NaN circularity.", "quantifier": "every galaxy and binning", "why_tests_cant": "requires a specific bin-occupancy pattern", "anchors": ["galaxychop/utils/_circ.py:_jcirc"]}
{"id": "C33", "title": "Circularity ignores masses and softening and is invariant under rotation about z", "statement": "jcirc depends on the galaxy only through particle types, total energies and angular momenta: changing masses or softenings with energies fixed does not change it; in exact arithmetic rotating all positions and velocities about the z axis leaves every circularity output unchanged.", "quantifier": "every galaxy, every rotation angle", "why_tests_cant": "infinite symmetry family", "anchors": ["galaxychop/utils/_circ.py:_jcirc"]}
{"id": "C34", "title": "eps is Jz over interpolated Jcirc; eps_r is rescaled", "statement": "In exact arithmetic, for every star with |eps|<=1: eps*Jcirc = Jz with Jcirc the interpolated curve in units of the largest |Jz| of bound particles, whereas eps_r equals Jp/Jcirc multiplied by (max|Jz|/max Jp): the documented eps_r = Jp/Jcirc holds only when both maxima agree.", "quantifier": "every galaxy and star", "why_tests_cant": "algebraic identity over all reals", "anchors": ["galaxychop/utils/_circ.py:_jcirc"]}
{"id": "C35", "title": "Decomposition output is aligned with the galaxy", "statement": "For every decomposer returning one label per selected row, decompose(g) has len(g) labels and len(g) ptypes, ptypes being the humanised types in stars, dark_matter, gas order, and probabilities None or len(g) rows. (The attribute lists excluded in C37 are excluded here too.)", "quantifier": "every galaxy, every decomposer (split and mask functions arbitrary)", "why_tests_cant": "abstract over all user-defined decomposers", "anchors": ["galaxychop/models/_base.py:GalaxyDecomposerABC.decompose", "galaxychop/models/_base.py:Components"]}
{"id": "C36", "title": "Labels reach exactly the selected particles in order", "statement": "complete_labels puts the k-th label on the k-th selected row and NaN on every other row; for the stars mixin the selected rows are exactly the star rows whose attributes are all finite, so dark matter, gas and non-finite stars are always NaN; complete_probs does the same row-wise.", "quantifier": "every mask, label vector, matrix", "why_tests_cant": "index bookkeeping for all masks", "anchors": ["galaxychop/models/_base.py:complete_labels", "galaxychop/models/_base.py:complete_probs", "galaxychop/models/_base.py:DynamicStarsDecomposerMixin.get_rows_mask"]}
{"id": "C37", "title": "The attribute matrix describes the right particle", "statement": "Row i, column j of the matrix given to a decomposer is attribute j of particle i in stars, dark matter, gas order: data-frame attributes verbatim, circularity attributes from jcirc for stars and NaN for the rest; y is the particle type value. This holds unless normalized_star_Jz is the only circularity attribute and a star is not bound; then rows and particles no longer correspond (witness). With no attribute the call raises ValueError, with an unknown one KeyError, and with normalized_star_Jz beside another circularity attribute and an unbound star ValueError.", "quantifier": "every galaxy, every attribute list, every row and column", "why_tests_cant": "joins of two frames for arbitrary attribute lists", "anchors": ["galaxychop/models/_base.py:attributes_matrix", "galaxychop/models/_base.py:_get_jcirc_df"]}
{"id": "C38", "title": "Components construction", "statement": "Components(labels,ptypes,probabilities) raises ValueError iff the lengths differ; to_dataframe returns labels, ptypes and one probs_k column per component in order, all with that length.", "quantifier": "every triple of arrays", "why_tests_cant": "unbounded lengths", "anchors": ["galaxychop/models/_base.py:Components"]}
{"id": "C39", "title": "Hyper-parameter validation", "statement": "A decomposer is constructible iff cbins is a tuple of exactly two floats (ints rejected; zero, negative and NaN accepted) and, for JThreshold, eps_cut is neither > 1 nor < -1 (the end points and NaN are accepted).", "quantifier": "every Python value", "why_tests_cant": "value space is infinite; NaN hole", "anchors": ["galaxychop/models/_base.py:_bins_validator", "galaxychop/models/_threshold.py:check_eps_cut"]}
{"id": "C40", "title": "JThreshold rule end to end", "statement": "For a non-NaN eps_cut, decompose labels a star 1 if its circularity is > eps_cut, 0 if <= eps_cut, NaN if its circularity is not finite; raising eps_cut never moves a star into the disk; no label depends on uninitialised memory. With eps_cut = NaN (accepted) every label is uninitialised memory.", "quantifier": "every galaxy and cut value", "why_tests_cant": "all floats including ties and NaN", "anchors": ["galaxychop/models/_threshold.py:JThreshold.split"]}
{"id": "C41", "title": "JHistogram labels every particle exactly once", "statement": "For digits >= 0 and any n_bin for which split returns, every particle with eps in [-1,1] gets label 0 or 1, never both and never uninitialised memory, for every behaviour of the random generator.", "quantifier": "every eps array, n_bin, digits and generator", "why_tests_cant": "every value against rounded bin edges, every random draw", "anchors": ["galaxychop/models/_histogram.py:JHistogram.split"]}
{"id": "C42", "title": "JHistogram spheroid composition", "statement": "All particles in counter-rotating bins are spheroid; in the co-rotating bin mirrored around zero from a counter-rotating bin exactly min(counter,co) particles are spheroid, chosen from that bin; co-rotating bins without mirror are all disk.", "quantifier": "every eps array, n_bin, digits and generator", "why_tests_cant": "counts for all histograms", "anchors": ["galaxychop/models/_histogram.py:_make_corot_sph", "galaxychop/models/_histogram.py:_make_disk"]}
{"id": "C43", "title": "JHistogram needs a zero edge", "statement": "For digits >= 0, split (and decompose, once the circularities exist) raises ValueError if n_bin < 1 and IndexError exactly when no rounded edge is zero, and otherwise returns. In exact arithmetic the edges are -1+2i/n_bin rounded to the nearest multiple of 10^-digits and one is zero exactly if n_bin is even or n_bin >= 2*10^digits. In binary64 an even n_bin has a zero edge for digits <= 15; for digits = 16 that fails (n_bin = 98). With digits < 0 split always raises.", "quantifier": "every n_bin up to 2^53, every digits, every input and generator", "why_tests_cant": "parameter space is infinite", "anchors": ["galaxychop/models/_histogram.py:_make_histogram"]}
{"id": "C44", "title": "Randomised decomposers: reproducibility", "statement": "Two JHistogram (JEHistogram) objects with the same hyper-parameters and generator agree on every sequence of galaxies; how many particles of a bin go to the spheroid does not depend on the generator; if no co-rotating bin holds more particles than its mirror nothing is drawn and the labels do not depend on the generator at all. But the generator advances: calling decompose twice on one object can give different labels (refuted with witness).", "quantifier": "every galaxy, seed and call history", "why_tests_cant": "histories of calls", "anchors": ["galaxychop/models/_histogram.py:JHistogram.random_state"]}
{"id": "C45", "title": "JEHistogram labels every particle exactly once", "statement": "As for JHistogram; in a co-rotating bin more populated than its mirror the spheroid receives min(counter, co) particles of each energy bin [a, b) and none with an energy outside [-1, 0), hence never more than the mirror bin holds.", "quantifier": "every (energy, eps) array, n_bin, n_bin_E, digits and generator", "why_tests_cant": "all two-dimensional histograms", "anchors": ["galaxychop/models/_histogram.py:JEHistogram"]}
{"id": "C46", "title": "JEHistogram can fail on zero-energy stars", "statement": "Energies equal to 0 are counted in the last energy bin by np.histogram but excluded by the half-open selection mask. split raises ValueError exactly when in some co-rotating bin more populated than its mirror the last energy bin counts more counter-rotating particles than co-rotating ones of negative energy but fewer than with those of energy zero; if no normalised energy equals 0 the energy step never raises. There is a galaxy with all energies in [-1,0] and circularities in [-1,1] for which decompose raises with the default parameters (refuted with witness).", "quantifier": "every input", "why_tests_cant": "requires an exact boundary value", "anchors": ["galaxychop/models/_histogram.py:JEHistogram._make_corot_sph"]}
{"id": "C47", "title": "AutoGaussianMixture grouping", "statement": "Each Gaussian with non-NaN centre is assigned to exactly one of halo, bulge, cold disk, warm disk by the documented thresholds; each particle's four probabilities add up to the total of its component probabilities (exact arithmetic) and its label in {0,1,2,3} is the first index of a maximal probability.", "quantifier": "every fitted mixture", "why_tests_cant": "all centre values including boundaries", "anchors": ["galaxychop/models/_gaussian_mixture.py:AutoGaussianMixture.split"]}
{"id": "C48", "title": "AutoGaussianMixture model selection", "statement": "The number of Gaussians used is the smallest n in 2..15 whose BIC/len(X) exceeds the mean of the last five by at most c_bic; it exists whenever c_bic >= 0 in exact arithmetic, but not always in floating point (refuted with c_bic = 0 and fourteen equal values); ValueError is raised when none qualifies; the choice does not depend on the order in which the parallel fits finish.", "quantifier": "every BIC curve, c_bic and completion order", "why_tests_cant": "parallel completion order and real-valued curves", "anchors": ["galaxychop/models/_gaussian_mixture.py:AutoGaussianMixture.split"]}
{"id": "C49", "title": "Mixture and k-means wrappers pass data through", "statement": "KMeans and GaussianMixture hand scikit-learn exactly the finite star rows in order with the user's hyper-parameters and return its labels (and probabilities) on those rows unchanged; AutoGaussianMixture builds each fit with the same hyper-parameters except n_components and random_state.", "quantifier": "every galaxy and every scikit-learn behaviour", "why_tests_cant": "the library is an arbitrary oracle", "anchors": ["galaxychop/models/_kmeans.py:KMeans.split", "galaxychop/models/_gaussian_mixture.py:GaussianMixture.split"]}
{"id": "C50", "title": "HDF5 round trip", "statement": "If none of the stored values is NaN, read_hdf5 after to_hdf5 rebuilds the galaxy with identical masses, positions, velocities, potentials (or none) and derived quantities; softenings are those given to read_hdf5 and are not stored. If some mass, coordinate, velocity or potential is NaN, to_hdf5 succeeds but the file cannot be read again: read_hdf5 raises TypeError, because a column with missing values is stored together with a mask column that mkgalaxy does not know.", "quantifier": "every galaxy, including empty particle sets", "why_tests_cant": "tests compare seven columns of one galaxy", "anchors": ["galaxychop/io.py:to_hdf5", "galaxychop/io.py:read_hdf5"]}
{"id": "C51", "title": "The last write wins", "statement": "After any history of to_hdf5 calls on one file, with any options and ending in any way, a complete call with default options on a galaxy without NaN among its stored values (see C50) makes reading return the galaxy of that call; unrelated datasets in the file are untouched; writing a galaxy without potential over one with potential leaves no stale potential.", "quantifier": "every sequence of writes to a file with arbitrary previous content", "why_tests_cant": "histories are unbounded", "anchors": ["galaxychop/io.py:to_hdf5"]}
{"id": "C52", "title": "to_hdf5 is not atomic", "statement": "to_hdf5 is not atomic: if writing stops (exception) after some but not all of the three tables have been replaced, the file still reads, if neither galaxy stores a NaN, as a galaxy that mixes particles of the old and new galaxies (ValueError if only one has a potential); if it stops between removing an old table and creating the new one, reading raises KeyError; with overwrite=False (or append=False) on a file that has a stars table nothing is changed.", "quantifier": "every crash point between table writes, every pair of galaxies", "why_tests_cant": "crash points are not reachable from unit tests", "anchors": ["galaxychop/io.py:to_hdf5"]}
{"id": "C53", "title": "HDF5 metadata precedence", "statement": "User metadata override the default metadata and the timestamp key by key; defaults not overridden are stored; attributes already in the file and not written again survive.", "quantifier": "every metadata dictionary and every previous file", "why_tests_cant": "all dictionaries", "anchors": ["galaxychop/io.py:to_hdf5", "galaxychop/io.py:_DEFAULT_METADATA"]}
{"id": "C54", "title": "Reading named columns", "statement": "read_npy gives each matrix column the meaning of its name: permuting the columns together with their names does not change the outcome; the values of an id column are ignored; a missing or unknown column raises TypeError, a potential for only some types ValueError, names that do not fit the matrix ValueError, a potential file of the wrong length ValueError (one value is repeated for all particles); in all other cases a galaxy is returned.", "quantifier": "every matrix and column list", "why_tests_cant": "all permutations", "anchors": ["galaxychop/io.py:read_npy", "galaxychop/io.py:_table_to_dict"]}
{"id": "C55", "title": "Plot dispatch", "statement": "galaxy.plot(kind) raises ValueError for every name starting with an underscore, for the two data helpers and for every unknown name, and calls the method of that name otherwise.", "quantifier": "every string", "why_tests_cant": "all strings", "anchors": ["galaxychop/plot.py:GalaxyPlotter.__call__"]}
{"id": "C56", "title": "Plot data frame and hue", "statement": "get_df_and_hue returns one row per particle of the selected types in galaxy order; a string label becomes the hue column and is present in the frame; an array label becomes the first column Labels with row k holding label k, and its length must be that of the frame (ValueError otherwise) unless the selection is empty, in which case the frame takes one row of NaN per label; lmap is applied to the hue column only, with dict lookups leaving unmapped values unchanged.", "quantifier": "every galaxy, selection, labels and lmap", "why_tests_cant": "all label arrays and dictionaries", "anchors": ["galaxychop/plot.py:get_df_and_hue"]}
{"id": "C57", "title": "Circularity plots pair labels with the right stars", "statement": "get_circ_df_and_hue pairs finite labels with finite-circularity rows by position: for labels produced by a stars decomposer whose selected rows are the finite-circularity stars every row shows the label of its own star. It raises ValueError if a star is unbound; if the number of finite labels differs from the number of finite rows it raises ValueError, unless there is no finite row at all, when every label is drawn beside NaN.", "quantifier": "every galaxy and label vector", "why_tests_cant": "two independent filters must agree", "anchors": ["galaxychop/plot.py:get_circ_df_and_hue"]}
{"id": "C58", "title": "Galaxy invariants survive every pipeline", "statement": "After any sequence of potential, center, star_align, to_hdf5 and read_hdf5 calls on one galaxy and one file that starts without galaxy tables, in any order and with writes failing anywhere: masses, particle counts and types are unchanged and all arrays keep consistent lengths. Once a potential is present it is kept unchanged as long as only what was just completely written is read; reading an older file may remove it. In exact arithmetic, with undisturbed writes, the galaxy is always a rigid motion of the first one unless an alignment has turned positions into NaN.", "quantifier": "every finite sequence of operations", "why_tests_cant": "histories are unbounded", "anchors": ["galaxychop/utils/_center.py", "galaxychop/utils/_align.py", "galaxychop/utils/_potential.py", "galaxychop/io.py"]}
{"id": "C59", "title": "Header checker", "statement": "For a template whose last line is not blank, the header checker accepts a file iff its first k lines, with trailing whitespace removed, equal the k lines of the template with trailing whitespace removed, whatever the line endings (LF, CR LF, CR) of the two; anything after the first k lines is irrelevant. A template of several lines that ends in a blank line accepts no ordinary file, and one without text accepts every file. The command exits with 0 iff every listed file is accepted, reports exactly the others, exits with 1 on an OSError and raises ValueError for a name that does not end in .py.", "quantifier": "every file content and template", "why_tests_cant": "all texts", "anchors": ["tools/checkheader.py:check_file_header", "tools/checkheader.py:lines_rstrip", "tools/checkheader.py:CLI.check"]}
{"id": "C60", "title": "Plot methods hand seaborn complete data", "statement": "Whenever a plot method reaches seaborn, the x, y and hue it names are columns of the frame it passes, labels given as components or arrays appear as the hue, and the caller's keyword options are passed through unchanged with only absent pair-plot defaults added; an option named data or hue raises TypeError.", "quantifier": "every galaxy, axis choice, selection, labels, lmap and options", "why_tests_cant": "all combinations of names and options", "anchors": ["galaxychop/plot.py:GalaxyPlotter.scatter", "galaxychop/plot.py:GalaxyPlotter.pairplot", "galaxychop/plot.py:GalaxyPlotter.circ_pairplot"]}
{"id": "C61", "title": "Centring and aligning together", "statement": "center followed by star_align gives a galaxy that is centred for is_centered with any finite rtol and any atol >= 0 in every rounded arithmetic (finite coordinates), and in exact arithmetic is_star_aligned holds as well when there is in-plane angular momentum; star_align followed by center may leave the galaxy not aligned.", "quantifier": "every constructible galaxy with potential, every cut and tolerances", "why_tests_cant": "all galaxies; the order of two operations", "anchors": ["galaxychop/utils/_center.py:center", "galaxychop/utils/_align.py:star_align"]}
{"id": "C62", "title": "The potential does not depend on position and orientation", "statement": "In exact arithmetic the potentials of a galaxy and of any rigid motion of it are the same, and potential and star_align can be interchanged: both orders give the same galaxy.", "quantifier": "every finite galaxy without coincident particles, every rotation and shift", "why_tests_cant": "all galaxies and rotations", "anchors": ["galaxychop/utils/_potential.py:potential", "galaxychop/utils/_align.py:star_align"]}
{"id": "C63", "title": "Accuracy of the single-precision potential", "statement": "For a float64 galaxy without potential whose float32-converted positions differ by 0 or by between 2^-40 and 2^40 in each coordinate, with positive converted masses and a softening in that range, no pair at zero softened distance and at most 2^22 particles, potential with the Fortran backend succeeds and each potential is within a relative error of (n + 5) 2^-23 of the exact softened sum of the converted inputs. More generally the loop has a relative error of at most 2 (n + 5) u in any arithmetic whose operations have relative error at most u. Conversion to float32 rounds to nearest and conversion back keeps the value.", "quantifier": "every galaxy in range with n particles, every summation order of np.sum, every G between 2^-40 and 2^20", "why_tests_cant": "a rounding error bound over all inputs; tests compare a few values with a tolerance", "anchors": ["galaxychop/utils/_potential.py:fortran_potential", "galaxychop/utils/_potential.py:potential", "galaxychop/utils/fortran/potential.f95"]}
{"id": "C64", "title": "Accuracy of energies and angular momentum", "statement": "For a particle whose positions and velocities are 0 or between 2^-40 and 2^40 in size, in any arithmetic with relative rounding error at most u <= 2^-24: kinetic_energy_ has a relative error of at most 10 u; each component a*d - b*c of the angular momentum has an absolute error of at most 4 u (|a d| + |b c|) + 2^-124; total_energy_ has an absolute error of at most 12 u (kinetic + |potential|) + 2^-124 for potentials up to 2^100. float32 and float64 satisfy this with u = 2^-24 and u = 2^-53.", "quantifier": "every particle of every constructed set, every arithmetic satisfying the rounding law", "why_tests_cant": "a rounding error bound over all inputs", "anchors": ["galaxychop/data.py:ParticleSet"]}
{"id": "C65", "title": "Decomposers are constructed from documented keyword hyper-parameters", "statement": "Each of the six decomposers is constructed exactly when there are no positional arguments, every keyword is in its documented table, cbins is a tuple of two floats, eps_cut (where present) is a number neither above 1 nor below -1, and the seed is accepted. The instance then holds under every documented name the argument or the documented default; random_state is the generator given, or a new one. The abstract classes, positional and unknown arguments raise TypeError, a bad cbins ValueError. Calling the class on the hyper-parameters of an instance gives back the same instance, sharing its generator.", "quantifier": "every class on offer, all keyword dictionaries, all seeds policies", "why_tests_cant": "all combinations of keywords and values; inheritance of fields through several bases", "anchors": ["galaxychop/models/_base.py:hparam", "galaxychop/models/_base.py:GalaxyDecomposerABC", "galaxychop/models/_threshold.py:JThreshold", "galaxychop/models/_kmeans.py:KMeans", "galaxychop/models/_histogram.py:JHistogram", "galaxychop/models/_histogram.py:JEHistogram", "galaxychop/models/_gaussian_mixture.py:DynamicStarsGaussianDecomposerABC"]}
{"id": "C66", "title": "Equality of decomposers made with equal arguments", "statement": "Two instances of a decomposer made one after the other with the same arguments compare equal exactly if the class has no random_state or random_state was given as a generator. With the same integer seed, or with none, they are different, since each gets a generator of its own. Instances of different classes are never equal.", "quantifier": "every class on offer, all accepted arguments", "why_tests_cant": "identity of objects made by a converter, for all arguments", "anchors": ["galaxychop/models/_base.py:GalaxyDecomposerABC", "galaxychop/models/_kmeans.py:KMeans"]}
{"id": "C67", "title": "Printed forms and angular momentum arrays", "statement": "The printed form of a galaxy or particle set gives the number of particles as a decimal numeral and whether there is a potential. Two galaxies print alike exactly if they agree in the number of stars, dark matter and gas particles and in having a potential; likewise particle sets of one softening in type, size and potential. A decomposer prints its class name and all documented hyper-parameters in order with the values held. angular_momentum_ of a galaxy lists stars, dark matter, gas, each as three arrays of the cross product of position and velocity of each particle.", "quantifier": "all galaxies, particle sets and constructed decomposers, all lengths", "why_tests_cant": "injectivity of decimal printing for all sizes", "anchors": ["galaxychop/data.py:Galaxy", "galaxychop/data.py:ParticleSet", "galaxychop/models/_base.py:GalaxyDecomposerABC.__repr__"]}
{"id": "C68", "title": "Accuracy of the alignment in floating point", "statement": "In floating point arithmetic with rounding unit u, if the total angular momentum of the stars stands out from the rounding errors (it is at least 10^5 (k+1000) u W, with W the sum of mass times largest coordinate times largest velocity component and k the factor of the summation, and its part in the x-y plane at least 2^-390 + 100 (k+10) u W), star_align without cut-off turns every particle of the galaxy by one common rotation up to 800 u times its largest coordinate, the angular momentum of the turned stars points along +z up to 50 (k+1000) u W, and is_star_aligned says yes for every relative tolerance of at least 10^-6. With a cut-off radius (at least 2^-90) the same holds, with the stars inside in place of all stars, if every star keeps a distance of 20000 u times its radius from the cut-off; the same stars are then inside before and after. Without a margin a star may change sides by rounding and the galaxy is not found aligned (witness). Without the condition on the angular momentum this fails: a star on a radial orbit is not found aligned after star_align.", "quantifier": "all galaxies of up to a million stars with numbers up to 2^100, with and without cut-off, every arithmetic with gradual underflow and summation error at most k u, double precision among them", "why_tests_cant": "an error bound over all inputs; the failing inputs are rare", "anchors": ["galaxychop/utils/_align.py:star_align", "galaxychop/utils/_align.py:is_star_aligned", "galaxychop/utils/_align.py:_get_rot_matrix"]}
{"id": "C69", "title": "Units of the arguments do not matter", "statement": "Arguments of mkgalaxy may be bare arrays or quantities in any unit that converts to the documented one. A galaxy can be built only from such arguments, and then building it, centring it, aligning it and computing its potential give, read through arr_ and to_dataframe in the default units, exactly the same numbers or the same error as building it from the converted plain numbers.", "quantifier": "all keyword dictionaries, all systems of units and conversions in which converting a unit to itself does nothing, any arithmetic", "why_tests_cant": "all tests in the repository use bare arrays; the statement ranges over every mixture of units", "anchors": ["galaxychop/data.py:ParticleSet", "galaxychop/data.py:mkgalaxy", "galaxychop/utils/_center.py:center", "galaxychop/utils/_align.py:star_align", "galaxychop/utils/_potential.py:potential"]}
{"id": "C70", "title": "Stored units", "statement": "A galaxy stores each argument with the unit it was given in, or the documented one if it had none; kinetic and total energies and angular momenta are in the default units. galaxy_as_kwargs and mkgalaxy give back the same galaxy with its units. center, star_align and potential keep the stored unit of everything they do not replace, and what they replace is in the default unit. The documentation is wrong in two places: potential_energy_ is not always in (km/s)^2, and softening given as a quantity in kpc is refused with a TypeError.", "quantifier": "all keyword dictionaries and galaxies, all systems of units, any arithmetic", "why_tests_cant": "covers every mixture of units and every galaxy; tests with bare arrays never see a second unit", "anchors": ["galaxychop/data.py:ParticleSet", "galaxychop/data.py:Galaxy.potential_energy_", "galaxychop/data.py:galaxy_as_kwargs", "galaxychop/data.py:mkgalaxy", "galaxychop/utils/_center.py:center", "galaxychop/utils/_align.py:star_align", "galaxychop/utils/_potential.py:potential"]}
{"id": "C71", "title": "Accuracy of the centring in floating point", "statement": "center keeps the order of the particles along each axis in any rounding arithmetic. In double precision every new coordinate differs from the exact difference to the position of one particle of lowest potential by a relative error of at most 2^-53, with no loss to underflow, and is exact when the two are of the same sign and within a factor of two; separations change by at most 2^-53 times the sum of the two distances to the centre. Distinct particles may be merged and the invariance under translations is lost in double precision (witnesses).", "quantifier": "all constructible galaxies with finite coordinates in every rounding arithmetic; all double-precision galaxies whose differences do not overflow", "why_tests_cant": "the error bound and the absence of underflow hold for every pair of doubles; tests compare with a tolerance far larger than the error", "anchors": ["galaxychop/utils/_center.py:center"]}
{"id": "C72", "title": "The circularity does not depend on the order of the particles", "statement": "If, in the units of the galaxy, bound particles of equal |Jz| have equal energy and those of least energy have equal |Jz| (no ties), jcirc depends only on the multiset of bound particles: permuting them, moving them between the stars, dark matter and gas sets, or sorting equal keys differently leaves the circular curve unchanged, and every star gets the same normalised energy, eps and eps_r, every bound star the same Jz. With ties this fails: exchanging two dark matter particles of equal |Jz| changes the eps of a star (witness).", "quantifier": "all constructible galaxies without ties, all permutations and all sorting algorithms, any rounding arithmetic, all bins", "why_tests_cant": "a statement about every permutation of every particle set and every admissible argsort", "anchors": ["galaxychop/utils/_circ.py:_jcirc"]}
{"id": "C73", "title": "Symmetries of the circularity", "statement": "Reversing axes of positions and velocities so that every component of the angular momentum is kept or reversed as a whole (half turns, mirror images, reversed motion; potentials kept, masses arbitrary) leaves jcirc's outcome unchanged: same errors, same curve, same normalised energies bit for bit, same eps_r by value, and Jz and eps the same by value or, if Jz is reversed, exactly opposite. Dark matter and gas that are not bound have no influence at all. In exact arithmetic, multiplying positions by a > 0, velocities by b > 0 and potentials by b^2 leaves everything unchanged.", "quantifier": "all constructible galaxies (NaN, infinities and missing potentials included), all admissible sign changes, all bins and argsorts, any rounding arithmetic; scaling for all positive reals in exact arithmetic", "why_tests_cant": "relates the outputs on infinitely many pairs of inputs, bit for bit, including error and NaN cases", "anchors": ["galaxychop/utils/_circ.py:_jcirc", "galaxychop/data.py:ParticleSet._Jz__default"]}
{"id": "C74", "title": "Stars on the circular curve have circularity exactly 1 or -1", "statement": "At the energy of a point of the circular curve the interpolated circular angular momentum is exactly the point's, with no rounding; so the circularity of a star with that energy is its Jz over the point's, and a star with the point's energy and |Jz| (in particular the one that made the point), neither zero nor NaN, has circularity exactly 1 or -1, with the sign of its Jz, in any arithmetic. Holds for all bins with non-decreasing edges starting at -1, among them the default bins in binary64.", "quantifier": "all constructible galaxies, all argsorts, all such bins, any rounding arithmetic; default bins in binary64 with any summation order", "why_tests_cant": "exactness of interpolation at the nodes for all curves and all arithmetic", "anchors": ["galaxychop/utils/_circ.py:_jcirc"]}
{"id": "C75", "title": "What the labels of a decomposition do not depend on", "statement": "A decomposer whose attributes are circularities sees only the result of jcirc and the sizes of the sets: if these agree for two galaxies it returns the same components and leaves its generator in the same state. So its result does not change with the masses and softenings (any arithmetic) nor with the units (exact arithmetic). For JThreshold with a cut that is not NaN, reversing axes so that Jz is kept (half turns about z, reflection in z = 0) leaves every label and every error the same, bit for bit; and without ties in |Jz| a star keeps its label under any reordering of the particles, any exchange of bound particles between sets and any sorting algorithm. In binary64 the labels do depend on the units: a witness is given in which tripling the positions moves a star from the spheroid to the disc.", "quantifier": "all constructible galaxies, all decomposers with circularity attributes, all cuts that are not NaN, all contents of uninitialised memory, any rounding arithmetic (units: exact arithmetic)", "why_tests_cant": "relates pairs of runs on all galaxies; tests use a few fixed galaxies", "anchors": ["galaxychop/models/_base.py:GalaxyDecomposerABC.decompose", "galaxychop/models/_base.py:GalaxyDecomposerABC.attributes_matrix", "galaxychop/models/_threshold.py:JThreshold.split"]}
{"id": "C76", "title": "The decomposition of a centred and aligned galaxy does not depend on the axes and the origin", "statement": "In exact arithmetic: take a finite galaxy and the same galaxy in other axes (any orthogonal matrix, left-handed systems included) with another origin, with the same potentials. Centring, aligning (both times with in-plane angular momentum before the alignment, any cut-off radius) and decomposing with any decomposer of circularity attributes gives the same components and leaves the generator in the same state; jcirc itself returns the same after aligning. The potential computed by the library with the Fortran backend is the same in both systems, so the claim covers galaxies that come without a potential. The result does depend on the motion of the frame: center does not touch velocities, and a witness is given in binary64 where adding one velocity to all particles moves a star from the disc to the spheroid.", "quantifier": "all finite galaxies in exact arithmetic, all orthogonal matrices and shifts, all cut-offs, all argsorts, all decomposers with circularity attributes", "why_tests_cant": "relates runs of the whole pipeline on all pairs of galaxies that differ by a change of frame", "anchors": ["galaxychop/utils/_center.py:center", "galaxychop/utils/_align.py:star_align", "galaxychop/utils/_circ.py:_jcirc", "galaxychop/models/_base.py:GalaxyDecomposerABC.decompose"]}
{"id": "C77", "title": "The printed form of a decomposition names exactly the labels in use", "statement": "repr of a Components object is Components(n, labels=[...], probabilities=b) where n is the decimal numeral of the number of particles, b tells whether there are probabilities, and the array printed holds entries of the labels, every label value once, in increasing order, followed by NaN if there are particles without a label (one NaN, or with NumPy before 1.21 one per such particle). It does not depend on how the sort inside np.unique treats ties. For labels that are integers or NaN, as those of the decomposers, the array is exactly the integers in use in increasing order and the NaNs; for JThreshold it is made of 0, 1 and NaN, each present exactly if some particle has it.", "quantifier": "all arrays of labels (all number formats of the model), all sorts, all texts for arrays, all galaxies and cuts for JThreshold", "why_tests_cant": "all arrays and all unstable sorts; NaN handling depends on the NumPy version", "anchors": ["galaxychop/models/_base.py:Components.__repr__", "galaxychop/models/_base.py:Components.__len__", "galaxychop/models/_threshold.py:JThreshold.split"]}
{"id": "C78", "title": "The mirror of a bin is its reflection around zero", "statement": "The histogram decompositions pair bin b with bin 2*bin0-1-b, bin0 being the first rounded edge equal to zero. In exact arithmetic, whenever there is a zero edge, edge 2*bin0-k is minus edge k for all k (so that the paired bins are reflections of each other) if and only if the number of bins is even and smaller than 4*10^digits; then bin0 is half the number of bins. In binary64 it holds for the default 100 bins and 2 digits, but not for all such numbers: with 80 bins and 2 digits it fails. With 1000 bins and 2 digits of every pair of bins one is empty whatever the data, so that every particle with a circularity between 0 and 1 is put into the disk.", "quantifier": "all numbers of bins and digits (exact arithmetic); the default and two other settings for all data, generators and ways of summing (binary64)", "why_tests_cant": "the condition covers infinitely many settings; the claim about 1000 bins is for all data", "anchors": ["galaxychop/models/_histogram.py:JHistogram._make_histogram", "galaxychop/models/_histogram.py:JHistogram._make_corot_sph", "galaxychop/models/_histogram.py:JHistogram._make_disk"]}
{"id": "C79", "title": "The spheroid of the histogram decompositions has almost no net rotation", "statement": "For JHistogram and JEHistogram, whatever the number of bins (up to 2^53), digits and generator: if all circularities lie in [-1, 1], the spheroid contains every counter-rotating particle and at most as many particles with circularity >= 0 as there are counter-rotating ones. With bins that mirror each other (even number below 4*10^digits, exact arithmetic) the circularities of the spheroid add up to at most (2/n_bin + 10^-digits) times the number of counter-rotating particles, and for JHistogram, if no counter-rotating bin holds more particles than its mirror, to at least minus that.", "quantifier": "all data in [-1, 1], numbers of bins and digits, generators that draw without replacement, energies", "why_tests_cant": "all data and all random draws", "anchors": ["galaxychop/models/_histogram.py:JHistogram.split", "galaxychop/models/_histogram.py:JEHistogram.split", "galaxychop/models/_histogram.py:JEHistogram._make_corot_sph"]}
{"id": "C80", "title": "Accuracy of the circularity in floating point", "statement": "In binary64, with the default energy bins (or any increasing bins whose last edge is at most -2^-40) and finite Jz, every star whose normalised energy, Jz and circularity are stored as finite numbers satisfies |eps * c - Jz| <= 2^-49, where c in [0, 1] is the exact piecewise linear interpolation of the stored curve (x, y) at the stored energy; in physical units the stored energy and Jz are E and Jz over their normalisations up to 2^-52, |eps * c - Jz/Jz_max| <= 2^-48 and |eps_r * c - Jp/Jp_max| <= 2^-48 (1 + |eps_r|) for |eps_r| up to 2^40 and finite Jp. The error of eps alone has no such bound: where the curve drops to zero a star with Jz/c above 4/3, which should be discarded, is stored with eps = 1/2.", "quantifier": "all galaxies, stars, ways of sorting and summing in binary64", "why_tests_cant": "a bound on the rounding error for all inputs; a test compares a few values to a tolerance", "anchors": ["galaxychop/utils/_circ.py:_jcirc"]}
{"id": "C81", "title": "Stars are discarded and classified as in exact arithmetic, up to a margin", "statement": "In binary64 with the default energy bins, finite Jz and bound particles that do not all have zero energy or all zero Jz: for every bound star let c be the exact interpolation of the stored curve at the star's rounded normalised energy and q = Jz/Jz_max computed exactly. If |q| < c - 2^-48 the star keeps a finite energy and circularity; if |q| > c + 2^-48 its circularity is NaN. For JThreshold with any finite cut t, the label of the star is NaN if |q| > c + 2^-48, and if |q| < c - 2^-48 it is 1 (disk) when q > t*c + 2^-48 and 0 (spheroid) when q < t*c - 2^-48.", "quantifier": "all galaxies, bound stars, cuts, ways of sorting and summing in binary64", "why_tests_cant": "shows that rounding changes the label of no star outside an explicit margin, for all inputs", "anchors": ["galaxychop/utils/_circ.py:_jcirc", "galaxychop/models/_threshold.py:JThreshold.split"]}
{"id": "C82", "title": "The spheroid of a decomposed galaxy has almost no net rotation, in floating point", "statement": "Whenever decompose with JHistogram or JEHistogram (any numbers of bins and energy bins up to 2^53, digits, generator) succeeds on a galaxy: every star that gets a label and has negative circularity is labelled 0, and among the stars labelled 0 those with circularity >= 0 do not outnumber those with negative circularity. In binary64 with the default 100 bins and 2 digits, the circularities of the stars labelled 0, added up exactly, are at most (1/50 + 2^-53) times the number of those with negative circularity; at the level of split, for JHistogram with no counter-rotating bin fuller than its mirror, the sum is also at least minus that.", "quantifier": "all galaxies, generators that draw without replacement, energies, ways of sorting and summing; for the binary64 bound the default bins", "why_tests_cant": "a bound on the angular momentum of the bulge for all galaxies and all random draws, with the rounding of the edges included", "anchors": ["galaxychop/models/_base.py:GalaxyDecomposerABC.decompose", "galaxychop/models/_histogram.py:JHistogram.split", "galaxychop/models/_histogram.py:JEHistogram.split"]}
{"id": "C83", "title": "AutoGaussianMixture in floating point: shares, labels and number of Gaussians", "statement": "In binary64: for every particle whose Gaussian probabilities are finite and non-negative, the probability given to each structure is within n/2^52 relative of the exact sum of the probabilities of the n Gaussians grouped in it; when no centre is NaN the four exact shares add up exactly to the exact total and the computed ones do so within n/2^52; and when one structure leads each other by more than n/2^52 times the two shares, it is the label (refuted without that margin). With 14 finite BIC values bounded by B, a number of Gaussians is accepted or rejected as in exact arithmetic unless its excess over the mean of the last five is within B/2^47 of the cut; outside that margin the number chosen is the smallest exact one, ValueError iff there is none; and some number is always found if the cut is at least B/2^47.", "quantifier": "all fitted mixtures, data, probabilities, BIC values (2^-800 <= B <= 2^800) and cuts in binary64", "why_tests_cant": "rounding bounds for all probabilities, BIC values and groupings; a test sees particular fits only", "anchors": ["galaxychop/models/_gaussian_mixture.py:AutoGaussianMixture.split"]}
{"id": "C84", "title": "Accuracy of the potential of the galaxy as given", "statement": "For a float64 galaxy without potential, at most 2^22 particles, positive masses and a softening between 2^-39 and 2^39 (softening may be 0) and coordinates 0 or between 2^-16 and 2^39: if no coordinate exceeds R0 and no two particles have a softened distance below D >= R0 / 2^19, then potential with the Fortran backend succeeds and every potential differs from minus G times the exact softened sum of the galaxy's own float64 masses, positions and softening by a relative error of at most (n + 8) 2^-23 + 3 R0 / (2^22 D). The bound depends on the distance from the origin and cannot be avoided: two stars at distance 1 without softening have potential -1, but minus infinity after both are shifted by 2^25, because the conversion to float32 merges them (and center cannot be called first, since it needs the potential).", "quantifier": "all galaxies within the stated ranges, every single-precision value of G between 2^-40 and 2^20, every order of np.sum", "why_tests_cant": "a worst-case error bound over all galaxies, including the conversion of positions to single precision", "anchors": ["galaxychop/utils/_potential.py:potential", "galaxychop/utils/_potential.py:fortran_potential"]}
{"id": "C85", "title": "Histogram decompositions in floating point are those of exact arithmetic", "statement": "JHistogram with the default bins (100, two digits) gives the labels that the same code would give in exact real arithmetic on the same circularities, and calls the random generator in the same way, unless some circularity is exactly the double nearest to one of the bin edges -0.98, -0.96, ... that is not itself a double (all edges but -1, -0.5, 0, 0.5, 1). JEHistogram with the default bins (20 energy bins) does too, if besides no normalized energy is within 2^-52 of an inner energy edge. The condition is needed: with circularities 0.06 and -0.07 as doubles the labels are 0, 0 in floating point and 1, 0 in exact arithmetic, since the double 0.06 is below the exact edge but equal to the computed one.", "quantifier": "all feature matrices of doubles (NaN and infinities included), all generators and states, every order of np.sum", "why_tests_cant": "a comparison with exact real arithmetic for every set of stars; the deviating inputs are single doubles", "anchors": ["galaxychop/models/_histogram.py:JHistogram.split", "galaxychop/models/_histogram.py:JEHistogram.split"]}
{"id": "C86", "title": "Accuracy of the numpy potential backend", "statement": "Under the conditions of C84, and if the uninitialised memory on the diagonal happens to hold zeros (C21), potential with the numpy backend succeeds and every potential differs from minus G times the exact softened sum of the galaxy's own masses, positions and softening by a relative error of at most (n + 8) 2^-23 + 3 R0 / (2^22 D), in whatever order and with whatever bracketing np.sum adds the row. Hence the numpy and Fortran backends agree within twice that bound, so results hardly depend on whether the compiled module could be imported. They do not agree bit for bit: a galaxy is given whose potential has a different last digit when np.sum starts from the other end.", "quantifier": "all galaxies within the stated ranges, every order and bracketing of the sums, every content of the memory off the diagonal, every single-precision G between 2^-40 and 2^20", "why_tests_cant": "a worst-case error bound over all galaxies and all summation orders; the order used by np.sum depends on the build and the machine", "anchors": ["galaxychop/utils/_potential.py:numpy_potential", "galaxychop/utils/_potential.py:potential"]}
{"id": "C87", "title": "A stored galaxy is analysed like the original", "statement": "If a galaxy whose stored numbers contain no NaN is written with to_hdf5 into any file and read back with read_hdf5, whatever softenings are given when reading, then centring, aligning (with any cut) and decomposing the result with a decomposer that uses circularities gives the components, or the error, obtained from the original galaxy, bit for bit. If the softenings of the original are given when reading, the galaxy read is the original. A potential computed only after reading can differ: softenings are not stored, and an example is given.", "quantifier": "all constructible galaxies without NaN, all previous file contents, metadata, softenings, cuts and decomposers using circularity attributes, exact and floating-point arithmetic", "why_tests_cant": "the round trip is composed with the whole analysis; tests compare a few attributes of one galaxy, not every later result for every galaxy, file and decomposer", "anchors": ["galaxychop/io.py:to_hdf5", "galaxychop/io.py:read_hdf5", "galaxychop/models/_base.py:GalaxyDecomposerABC.decompose"]}
{"id": "C88", "title": "What == says about galaxies and decompositions", "statement": "attrs generates == for Galaxy, ParticleSet and Components by comparing tuples of attributes. A galaxy is equal to itself, whatever it contains. Two galaxies made separately (no array object in common) compare equal exactly if each of the three sets consists of one particle and all stored and derived numbers are numerically equal. If one has at least two stars and the numbers of stars agree, or one of them has exactly one star, == and != raise ValueError, however equal or different the contents; if the numbers differ and neither is one, new numpy raises and old numpy says unequal; with no star on one side and at most one on the other they are unequal. Two galaxies with the same contents and an empty set compare unequal. Components of two or more particles made separately cannot be compared either; those of one particle are equal exactly if label, type and probability agree. Galaxies and Components cannot be hashed: TypeError.", "quantifier": "all constructible galaxies and components, all identities of their arrays, old and new numpy, every number type", "why_tests_cant": "the outcome depends on object identity and array lengths; tests compare attributes one by one and never use == on galaxies", "anchors": ["galaxychop/data.py:ParticleSet", "galaxychop/data.py:Galaxy", "galaxychop/models/_base.py:Components"]}
{"id": "C89", "title": "The stand-alone Fortran programs agree with the package", "statement": "potential_test.f90 writes, for every particle in order, G times the softened sum over the others. potential.f90, which has no softening, gives bit for bit what it would give with softening zero. Its OpenMP loop (also that of potential_TNG.f90) gives the result of the sequential loop under every interleaving of the accesses to the shared array and whatever that held before, never blocks, and takes at most n (3 n + 4) steps. potential_TNG.f90 writes for each particle type exactly its own particles with their IDs and the sums over the particles of all types, no gas file if there is no gas, and fails if a file has fewer lines than announced. Under the conditions of C84 and if no separation is tiny, the potentials of the package (single precision, Fortran backend) and those of potential_test.f90 (double precision, positive sign) cancel up to a relative error of (n + 9) 2^-23 + 3 R0 / (2^22 D) once each is divided by its constant of gravitation, whatever the order in which the programs get the particles.", "quantifier": "all lists of particles, schedules and input files, all values of G and eps, all galaxies within the stated ranges and all orders of their particles", "why_tests_cant": "the test suite compares the package with one file of 100 particles written by the reference program; the agreement is a worst-case bound over all galaxies", "anchors": ["resource/potential_test.f90:potencial", "resource/potential.f90:potencial", "resource/potential_TNG.f90:potencial", "galaxychop/utils/_potential.py:potential"]}
{"id": "C90", "title": "Version, Fortran module and default backend of an installation", "statement": "setup.py takes the version from the first line of galaxychop/__init__.py that begins with __version__: the part after its first equals sign without double quotes and outer white space, whatever the line endings; for a value in double quotes this is the value. Without such a line no version is defined. Single quotes and trailing comments end up in the version. In every installation (with or without the compiled module, on readthedocs or not) potential(galaxy) without a backend succeeds for a galaxy without potential; on readthedocs, or where the module cannot be loaded, the default is numpy, elsewhere fortran; the module is built with OpenMP and linked with its library everywhere else than on readthedocs; and naming the fortran backend works exactly where it is the default.", "quantifier": "all texts of lines with uniform line endings, all environments, all outcomes of loading the module, all constructible galaxies", "why_tests_cant": "the tests run in one installation and never execute setup.py; whether the compiled module exists cannot be varied in a test run", "anchors": ["setup.py:VERSION", "setup.py:EXTENSIONS", "galaxychop/utils/_potential.py:DEFAULT_POTENTIAL_BACKEND", "galaxychop/utils/_potential.py:potential"]}
{"id": "C91", "title": "Accuracy of the potential when the compiler fuses multiplications and additions", "statement": "Compilers may contract products and sums of the Fortran loop to fused multiply-adds, and differently in different copies of the loop body. For every choice of contractions, pair by pair, the bounds of C63 and C84 hold unchanged: a relative error of at most 2 (n + 5) u in any arithmetic with rounding unit u and a correctly rounded fused operation, (n + 5) 2^-23 against the exact potential of the float32 inputs and (n + 8) 2^-23 + 3 R0 / (2^22 D) against that of the float64 galaxy. The IEEE fma of binary32 is such an operation. Without contractions the kernel is that of the other claims; with them the bits of a distance can change (witness).", "quantifier": "all galaxies within the ranges of C63 and C84, all assignments of contractions to pairs of particles, all values of G in range", "why_tests_cant": "the tests run one binary from one compiler; which operations are fused depends on compiler, flags and processor", "anchors": ["galaxychop/utils/fortran/potential.f95:fortran_potential", "setup.py:EXTENSIONS", "galaxychop/utils/_potential.py:fortran_potential"]}
{"id": "C92", "title": "Energies of a whole galaxy", "statement": "kinetic_energy_, potential_energy_ and total_energy_ of a galaxy hold one array per particle set, in the order stars, dark matter, gas, with one entry per particle: half the squared speed, the stored potential and their sum; the last two are None exactly when the galaxy has no potential. The columns of the data frame of the whole galaxy are these arrays one after the other (NaN without potential). Centring leaves all three unchanged bit for bit, computing the potential leaves the kinetic energies unchanged. In exact arithmetic the potentials weighted with the masses add up to minus twice G times the sum over all pairs of particles of the product of the masses over the softened distance.", "quantifier": "all constructible galaxies in any arithmetic, all attribute lists; for the pair sum all galaxies of finite particles at non-zero softened distances", "why_tests_cant": "tests compare the tuples with the same attributes of the sets on one mock galaxy; order, lengths and the identity of the pair sum hold for every galaxy", "anchors": ["galaxychop/data.py:Galaxy.kinetic_energy_", "galaxychop/data.py:Galaxy.potential_energy_", "galaxychop/data.py:Galaxy.total_energy_", "galaxychop/data.py:Galaxy.to_dataframe", "galaxychop/utils/_center.py:center", "galaxychop/utils/_potential.py:potential"]}
{"id": "C93", "title": "Accuracy of centring and aligning one after the other", "statement": "When a galaxy is first centred and then aligned in floating point, every particle of the result has, along z, the part of its angular momentum about the particle of lowest potential that lies along the total angular momentum of the stars, and a projected angular momentum equal to the length of the rest. The errors are at most 3500 and 9000 times (k + 1000) u W/|L| times position times velocity, where u is the unit of rounding, k the factor of the summation, W the sum of mass times position times velocity of the stars and L their total angular momentum. Kinetic energies are kept up to 60000 u times the squared speed. In particular in double precision with at most a million stars.", "quantifier": "every galaxy of finite particles with numbers up to 2^99 after centring whose stars have a total angular momentum, and an in-plane part of it, that stands out from the rounding errors; every arithmetic with gradual underflow and 2^-100 <= u <= 2^-40, every summation with a bound on its error", "why_tests_cant": "tests centre and align one mock galaxy and compare with a tolerance; the effect of cancellation in the total on every single particle is a statement about all galaxies", "anchors": ["galaxychop/utils/_center.py:center", "galaxychop/utils/_align.py:star_align", "galaxychop/data.py:ParticleSet"]}
{"id": "C94", "title": "Alignment with any matrix product", "statement": "The accuracy of star_align does not depend on the library that computes np.dot. For every way to compute the entries - products in any order and grouping, rounded or fused into sums, started from zero, multiplied by one, differently in every entry and call - every particle is turned by one rotation up to 800 units of rounding, the stars end up along z within the bound of C68, is_star_aligned says True, and centring followed by aligning keeps the bounds of C93. Masses, potentials, softening and the exceptions are the same too. In exact arithmetic the result is the same galaxy. In double precision two libraries can return different bits.", "quantifier": "every function computing the products in such a way, every fused operation that rounds once, every galaxy as in C68 and C93; frame and exceptions for every galaxy, cut-off and arithmetic", "why_tests_cant": "tests run with the one BLAS that is installed; whether another one changes the result beyond rounding cannot be observed", "anchors": ["galaxychop/utils/_align.py:star_align", "galaxychop/utils/_align.py:_get_rot_matrix", "galaxychop/utils/_align.py:is_star_aligned"]}
{"id": "C95", "title": "Which particle is the centre, and infinite or missing values", "statement": "center moves one definite particle to the origin: the first one whose potential is lowest, a missing potential counting as infinitely high, and the last particle of all when every potential is missing. is_centered says True exactly when this particle has three finite coordinates of at most atol in absolute value; a finite rtol makes no difference. When a component of the total angular momentum of the stars is infinite or NaN, is_star_aligned says True exactly when the z component is plus infinity and the others are not NaN. An angular momentum exactly along z is found not aligned when its square overflows. With the default tolerances, in exact arithmetic, is_centered allows 1e-8 in each coordinate and is_star_aligned a z component that falls short of the length of the total by 1e-8 plus 1e-5 of the length.", "quantifier": "every constructible galaxy with potential and at least one particle, every tolerance, cut-off and rounded arithmetic", "why_tests_cant": "ties, NaN potentials and infinite sums do not occur in the mock galaxies of the tests", "anchors": ["galaxychop/utils/_center.py:center", "galaxychop/utils/_center.py:is_centered", "galaxychop/utils/_align.py:is_star_aligned"]}
{"id": "C96", "title": "The computed circular curve and the labels against the exact ones", "statement": "Let the computed energies and Jz of all particles be within d (relative to the largest bound |energy| and |Jz|) of given real numbers, and let the exact curve built from those real numbers with the exact default bins be clear by a margin m >= 16 d + 2^-44: energies stay m away from zero, from the bin edges and from each other where the order matters, and in each bin the chosen body leads by m. Then the curve computed in binary64 has the same number of points, each within 3 d + 2^-52 of the exact one in both coordinates. The exact curve has exactly one value at each energy, between 0 and 1. Let it rise or fall by at most 1/a per unit of energy, with a <= 1; a = m is always possible. With JThreshold and the default bins every unbound star is labelled NaN; every bound star further than t = (12 d + 2^-47)/a from the exact curve, and further than (1 + |cut|) t from cut times the curve, gets the label of the exact rule. Without a margin a point can be off by more than 1/100 at d = 2^-60.", "quantifier": "every constructible galaxy in binary64, every way of summing and sorting, every exact bodies and margin, every finite cut; also other increasing bins", "why_tests_cant": "compares the computed curve with the one over the real numbers, for all inputs; a test can only compare with another floating-point computation", "anchors": ["galaxychop/utils/_circ.py:_jcirc", "galaxychop/utils/_circ.py:jcirc", "galaxychop/models/_threshold.py:JThreshold.split"]}
{"id": "C97", "title": "The labels of the whole analysis against exact arithmetic", "statement": "Take a galaxy as it is read, compute the potential with the Fortran backend (as written, or with products fused by the compiler in any way) or with the numpy backend (any order of adding, zeros in the fresh memory of the diagonal), centre it, align it and decompose it with JThreshold, all in floating point. The exact counterpart uses real numbers only: the softened Newtonian potentials, energies, and the angular momenta about the particle of lowest potential along the total angular momentum of the stars. If the exact potential of one particle is lower than all others by more than the error of the potential, this particle is the centre. If the rounding errors (61000 u v^2 plus the error of the potential for the energy, that of C93 for the angular momentum) are at most d in the units of the exact curve and the exact curve is clear by a margin m >= 16 d + 2^-44 and nowhere steeper than 1/a, the decomposition succeeds exactly if no unbound star precedes a bound one, and every star whose exact circularity is further than about (12 d + 2^-47)/a from the limits gets the label of the exact rule. The same holds for potentials that are given instead, up to a relative error, and for every way to compute the matrix product in the alignment.", "quantifier": "every constructible galaxy whose exact values meet the stated conditions, every way of summing, sorting and multiplying matrices in binary64, every finite cut", "why_tests_cant": "relates the final labels to the input over the real numbers for all galaxies; the tests compare single steps on a few galaxies", "anchors": ["galaxychop/utils/_potential.py:potential", "galaxychop/utils/_center.py:center", "galaxychop/utils/_align.py:star_align", "galaxychop/utils/_circ.py:_jcirc", "galaxychop/models/_threshold.py:JThreshold.split"]}
{"id": "C98", "title": "Widths of the energy bins that the circular curve accepts", "statement": "With a bound particle, the pair of bin widths decides what jcirc does. A first width of zero is a ZeroDivisionError; NaN, or a width of 2^-67 and less in size, is a ValueError; if the first width is neither, the second one is judged the same way; two negative widths leave no bin and are an IndexError. For all other pairs (2^-59 and more in size, infinite ones included) jcirc returns exactly if no unbound star precedes a bound one. A negative first width is accepted silently: the range up to -0.1 has no bins then, and all points of the curve but the first lie above -0.1. With infinite widths the curve has at most three points.", "quantifier": "every constructible galaxy with a bound particle, every pair of binary64 widths of these kinds, every way of summing and sorting", "why_tests_cant": "the tests use the default widths only", "anchors": ["galaxychop/utils/_circ.py:_jcirc", "galaxychop/utils/_circ.py:jcirc"]}
{"id": "C99", "title": "The histogram decompositions of the whole analysis against exact arithmetic", "statement": "Take the analysis of C97, with any of its backends, and JHistogram or JEHistogram (default numbers of bins) in place of JThreshold. Let every bound star be settled: its exact angular momentum is further than 2 t from k/50 times the exact curve for every k from -50 to 50, where t is the margin of C97, or it is a point of the curve, or it is the central particle with no angular momentum. If no unbound star precedes a bound one, the decomposition does with the same random generator exactly what it does over the real numbers with the exact circularities (and normalised energies) of the stars that are bound and not above the curve: the same labels and final generator state, or the same error; all other particles get NaN. Otherwise it raises. For JHistogram and every generator that draws without replacement, the run from the potential to the labels succeeds, and for every circularity cell [c/50,(c+1)/50) with c from 0 to 49 the spheroid takes as many of its stars as the mirrored cell holds, or all of them if there are fewer, the disc gets the rest, and the mirrored cell is all spheroid.", "quantifier": "every constructible galaxy whose exact values meet the stated conditions, every way of summing, sorting and multiplying matrices in binary64, every generator and state", "why_tests_cant": "relates the composition of each cell to the input over the real numbers for all galaxies and generators; tests compare against stored results for one seed", "anchors": ["galaxychop/utils/_potential.py:potential", "galaxychop/utils/_center.py:center", "galaxychop/utils/_align.py:star_align", "galaxychop/utils/_circ.py:_jcirc", "galaxychop/models/_histogram.py:JHistogram.split", "galaxychop/models/_histogram.py:JEHistogram.split"]}
{"id": "C100", "title": "Units that are powers of two change no bit of the result", "statement": "Let positions be multiplied by 2^a, velocities by 2^b and potentials by 2^(2b), exactly. If |a| and |b| are at most 50 and the numbers are not extreme (positions and velocities multiples of 2^-150 not above 2^150, potentials of 2^-300 not above 2^300), the circularities, normalised energies and angular momenta, the curve and the errors are the same bit for bit, and so are the labels of every decomposer that uses circularities. Centring commutes with the change of units; so does the alignment, the star masses being multiplied by 2^c and the cut-off radius by 2^a, for every order of summation that depends only on the number of stars; hence the whole chain centring, alignment, decomposition gives the same labels. Outside the range this fails: for a galaxy of size 2^-1000 a division of the positions by 2^50, though exact, changes circularities.", "quantifier": "every constructible galaxy in binary64 within the stated range, NaN and infinities included, every argsort, every order of summation that depends on the length only (any summation for the circularities), every decomposer on circularities", "why_tests_cant": "equality of all bits for all galaxies and all powers of two; the limits of the range show where it stops being true", "anchors": ["galaxychop/utils/_center.py:center", "galaxychop/utils/_align.py:star_align", "galaxychop/utils/_circ.py:_jcirc", "galaxychop/models/_base.py:GalaxyDecomposerABC.decompose"]}
{"id": "C101", "title": "The whole analysis in units that are powers of two, potentials in single precision included", "statement": "Let positions and softenings be multiplied by 2^a, velocities by 2^b and masses by 2^(a+2b), with |a| and |b| at most 10. For at most 2^20 particles with positions and softening zero or between 2^-16 and 2^20 and masses zero or between 2^-10 and 2^40, both potential backends, though they compute in binary32, give potentials multiplied by exactly 2^(2b), or the same error; so the analysis from the particles through potential, centring and alignment to the labels gives the same labels in both units. Outside the range it fails: with positions of 2^60, a unit of length 2^10 times smaller makes the squared distances overflow and the potentials vanish.", "quantifier": "every constructible galaxy within the range, both backends (numpy with zero-filled new arrays), any constant of gravitation between 2^-18 and 1, every order of summation that depends on the length only, every argsort, every decomposer on circularities", "why_tests_cant": "equality of all bits over all galaxies and units; tests use one unit system", "anchors": ["galaxychop/utils/_potential.py:potential", "galaxychop/utils/_potential.py:fortran_potential", "galaxychop/utils/_potential.py:numpy_potential", "galaxychop/utils/_center.py:center", "galaxychop/utils/_align.py:star_align", "galaxychop/models/_base.py:GalaxyDecomposerABC.decompose"]}
{"id": "C102", "title": "Motion of the galaxy as a whole", "statement": "Add one velocity w to all particles of a finite galaxy and keep the potentials. In exact arithmetic the kinetic energy of a particle with velocity v grows by v.w + |w|^2/2 and its angular momentum at r by r x w. Centring fails or succeeds as before and leaves the difference w. If the centre of mass of the stars inside the cut-off is at the origin, aligning turns both galaxies by the same rotation M and leaves the difference Mw. For every finite galaxy there is a speed beyond which no particle is bound, and circularities as well as every matrix of attributes with a circularity raise ValueError: nothing in the library removes the motion of the galaxy.", "quantifier": "every constructible finite galaxy (potentials possibly infinite or NaN), every velocity, every cut-off radius, every argsort, all bins and attribute lists", "why_tests_cant": "a statement over all velocities and galaxies; the test data are at rest", "anchors": ["galaxychop/utils/_center.py:center", "galaxychop/utils/_align.py:star_align", "galaxychop/utils/_circ.py:jcirc", "galaxychop/models/_base.py:GalaxyDecomposerABC.attributes_matrix"]}
{"id": "C103", "title": "The whole analysis with a cut-off radius in the alignment", "statement": "C93, C97 and C99 with star_align's r_cut. In double precision (centring and alignment: in any format with relative errors u from 2^-100 to 2^-40) a galaxy is centred on the particle of lowest potential, aligned with a cut-off radius c of at least 2^-90 using any order of summation and any matrix product, and decomposed with JThreshold, JHistogram or JEHistogram. Let ins be the stars that are exactly closer than c to that particle. If no star is within a relative 30000 u of the radius, if ins has a clear total angular momentum and all particles are of ordinary size, then the alignment succeeds and every label is that of exact arithmetic with the axis of ins, under the margins of C97 and C99: only the stars of ins decide the axis, but energies and angular momenta of all particles refer to it. With the potential computed by any backend the same holds with the errors of C84, C86 and C91.", "quantifier": "every constructible galaxy with ordinary values, every cut-off radius off the stars' radii, every order of summation, fused or plain matrix product, every argsort, every generator, every backend", "why_tests_cant": "the set of stars inside the radius is decided by rounded distances, and the rounding differs between machines; tests use one galaxy and one radius", "anchors": ["galaxychop/utils/_align.py:star_align", "galaxychop/utils/_align.py:_get_rot_matrix", "galaxychop/utils/_center.py:center", "galaxychop/models/_base.py:GalaxyDecomposerABC.decompose", "galaxychop/models/_threshold.py:JThreshold", "galaxychop/models/_histogram.py:JHistogram"]}
{"id": "C104", "title": "The matrix given to the mixture models against exact arithmetic", "statement": "In a whole analysis in double precision (potential given or computed by any backend, centring, alignment with or without a cut-off radius, default bins) KMeans, GaussianMixture and AutoGaussianMixture are given one row for each star that exact arithmetic keeps, in order, and no other: its normalized energy, its circularity and its projected circularity, each that of exact arithmetic up to stated errors. This holds if the stars are not near the circularity curve (or are points of it, or are the centre) and the curve is not near zero where a star is kept. The labels and the probabilities the method gives to the rows are those of these stars; every other particle gets NaN. An error of the method is the error of the decomposition. If a bound star comes after an unbound one there are no rows: the decomposition fails.", "quantifier": "every constructible galaxy with ordinary values, every order of summation, fused or plain matrix product, every argsort, every clustering method and its state, every backend and cut-off radius", "why_tests_cant": "the methods get numbers rounded differently on each machine and a star lost or added changes the clusters; tests compare stored results of one run", "anchors": ["galaxychop/models/_kmeans.py:KMeans", "galaxychop/models/_gaussian_mixture.py:GaussianMixture", "galaxychop/models/_gaussian_mixture.py:AutoGaussianMixture", "galaxychop/models/_base.py:GalaxyDecomposerABC.decompose", "galaxychop/models/_base.py:GalaxyDecomposerABC.attributes_matrix"]}
{"id": "C105", "title": "Histogram decompositions with other numbers of bins in floating point", "statement": "Let n_bin not be a multiple of 2^(digits+2) (so that no edge is halfway between two decimals) and n_bin * 10^digits at most 2^48. Then each edge computed in binary64 is the exact edge, -1 + 2 i / n_bin rounded to the decimals, rounded once; JHistogram gives the labels, the draws and the errors of exact arithmetic on the same circularities, unless one of these is the double nearest to an edge that is not a double; JEHistogram does too, with any number of energy bins, if no normalized energy is within 2^-50 of an inner energy edge. The paired bins then mirror each other exactly if n_bin is even and below 4 * 10^digits, as in exact arithmetic. With ties (80 bins, two digits) they need not (C78).", "quantifier": "all such numbers of bins and digits, all feature matrices of doubles, all generators and states, every order of np.sum", "why_tests_cant": "infinitely many parameter values; a comparison with exact real arithmetic for all data", "anchors": ["galaxychop/models/_histogram.py:JHistogram._make_histogram", "galaxychop/models/_histogram.py:JHistogram.split", "galaxychop/models/_histogram.py:JEHistogram.split"]}
{"id": "C106", "title": "Particles that decide nothing in jcirc", "statement": "Take a galaxy without ties in |Jz| (C72) and add to it any unbound particles, and any bound ones that are each less bound than some particle, have at most the |Jz| and at most the projected angular momentum of some particle, and have in their energy bin two particles of larger |Jz| (one in the last bin). Then the circularity curve is the same and every star keeps its normalized energy, Jz, eps and eps_r to the bit; if the stars are the same jcirc returns the same result, whatever the sort does with equal keys. A smaller |Jz| than one particle of the bin is not enough: adding the second particle of a bin changes circularities, since the curve then takes the second.", "quantifier": "all galaxies, all added particles, all bin sizes, every number system with monotone rounding (so binary64 and binary32), all sorting permutations", "why_tests_cant": "a relation between the runs on infinitely many pairs of galaxies, to the bit", "anchors": ["galaxychop/utils/_circ.py:_jcirc", "galaxychop/utils/_circ.py:jcirc"]}
{"id": "C107", "title": "The histogram decompositions of the whole analysis with other numbers of bins", "statement": "C99 (and C103 with a cut-off radius in the alignment) for other options of the decomposers: JHistogram with n_bin bins and edges rounded to any number of decimals, JEHistogram also with n_bin_E bins of energy. If no edge lies half way between two decimals, and every bound star is clear of the exact edges by the margin of C99 (or a point of the curve, or the centre), then centring, aligning and decomposing in floating point gives every star the label that the same random choices give in exact arithmetic with the exact circularities, every other particle gets NaN, and the same errors are raised (no edge at zero included). For JEHistogram no bound star may be near an inner edge of the energy bins. The potential can be given, up to a relative error, or computed by the library.", "quantifier": "every constructible galaxy whose exact values meet the stated conditions; every n_bin >= 1 and number of decimals with n_bin 10^digits <= 2^48 and 2^(digits+2) not dividing n_bin, every n_bin_E <= 2^53; every generator, way of summing, sorting and multiplying matrices in binary64", "why_tests_cant": "the claim compares with real arithmetic, for infinitely many galaxies and bin numbers", "anchors": ["galaxychop/utils/_potential.py:potential", "galaxychop/utils/_center.py:center", "galaxychop/utils/_align.py:star_align", "galaxychop/utils/_circ.py:_jcirc", "galaxychop/models/_histogram.py:JHistogram.split", "galaxychop/models/_histogram.py:JEHistogram.split"]}
{"id": "C108", "title": "The labels of the whole analysis do not depend on the order of the particles, the backend or the platform", "statement": "Take the same particles twice: with the stars in another order and the other particles in another order or moved between dark matter and gas, on two platforms that differ in the order of summation, the treatment of equal values in sorting, the matrix product, the Fortran or numpy backend of the potential and the memory they start from. If the exact analysis is clear (conditions of C97, required of one order only), then each of the two analyses (potential, centring, alignment, JThreshold) returns exactly if no unbound star precedes a bound one in its own order, and a star whose exact label is clear by the margin of C97 gets that label in both. With JHistogram and any two generators, both return and give the same number of stars of every exact cell of circularities to the spheroid and to the disc.", "quantifier": "every pair of constructible galaxies without potential that hold the same particles (any permutation of the stars, any permutation of the rest) and meet the stated conditions; every pair of platforms, backends and generators in binary64/binary32", "why_tests_cant": "there are factorially many orders and unknown library versions; tests compare a few runs on one machine", "anchors": ["galaxychop/utils/_potential.py:potential", "galaxychop/utils/_center.py:center", "galaxychop/utils/_align.py:star_align", "galaxychop/utils/_circ.py:_jcirc", "galaxychop/models/_threshold.py:JThreshold.split", "galaxychop/models/_histogram.py:JHistogram.split", "galaxychop/models/_histogram.py:JEHistogram.split"]}
{"id": "C109", "title": "A mirror image or the reversal of all motion does not change a single label of the whole analysis", "statement": "Take a galaxy and its image under any change of sign of axes of position and velocity that keeps or reverses each component of the angular momentum as a whole (reflections in coordinate planes, half turns, the reversal of all velocities and their products), a zero having either sign. In binary64 with potentials in binary32: both get bit for bit the same potentials from either backend; centring keeps them images of each other; aligning them with their own angular momenta makes them images under a symmetry that keeps the z component, even if the original one reversed it; circularities agree up to the sign of Jz and eps; JThreshold, JHistogram and JEHistogram do not see the sign of a zero. Hence potential, centring, alignment and decomposition give the same components, the same generator state and the same errors for both. Conditions on the platform: sums are odd functions of their entries (any order fixed by the length) and so are the matrix products (left to right or fused).", "quantifier": "every constructible galaxy and image (NaN and infinities included), every symmetric choice of signs, both backends and any junk memory, every sorting of equal values fixed by the values, every cut-off radius, every seed and parameters of the three methods", "why_tests_cant": "exact invariance over all double precision inputs, including rounding, overflow and signed zeros, cannot be sampled; the repository has no such test", "anchors": ["galaxychop/utils/_circ.py:_jcirc", "galaxychop/data.py:ParticleSet._Jz__default", "galaxychop/utils/_potential.py:potential", "galaxychop/utils/_center.py:center", "galaxychop/utils/_align.py:star_align", "galaxychop/models/_threshold.py:JThreshold.split", "galaxychop/models/_histogram.py:JHistogram.split", "galaxychop/models/_histogram.py:JEHistogram.split"]}
{"id": "C110", "title": "The axes and the origin in which a galaxy is given do not decide the labels of the whole analysis in floating point", "statement": "Give one galaxy in two systems of axes that differ by any rotation or reflection and any shift of the origin, with the stars in another order and the dark matter and gas in another order or exchanged, on any two platforms (order of summation, of equal values and of the products in the matrix product, fused or not, either backend of the potential). The exact potentials, energies, angular momenta along the axis of the stars and the circular curve are the same for both. If the exact analysis is clear (C97) and the coordinates in both systems fit the error bounds, the analysis in binary64 with potentials in binary32 (potential, centring, alignment, JThreshold) returns in each system exactly if no unbound star precedes a bound one in its own order, and every star whose exact label is clear by the margin gets that label in both. JHistogram gives the same numbers of stars of each exact cell to the spheroid and to the disc.", "quantifier": "every orthogonal matrix (not only those representable in floating point), every shift, every pair of galaxies whose coordinates are exact images of each other, every order, every pair of platforms and backends, every cut, every generator that draws without replacement", "why_tests_cant": "two runs in different axes differ in every rounding and agree only within error bounds; that the labels still agree follows only from a proof over all inputs and rounding orders", "anchors": ["galaxychop/utils/_circ.py:_jcirc", "galaxychop/data.py:ParticleSet._Jz__default", "galaxychop/utils/_potential.py:potential", "galaxychop/utils/_center.py:center", "galaxychop/utils/_align.py:star_align", "galaxychop/models/_threshold.py:JThreshold.split", "galaxychop/models/_histogram.py:JHistogram.split", "galaxychop/models/_histogram.py:JEHistogram.split"]}
{"id": "C111", "title": "JEHistogram in the whole analysis shares the stars of each circularity cell and energy bin as in exact arithmetic", "statement": "Take the analysis of C97 with JEHistogram (default numbers of bins) and any generator that draws without replacement. It raises if an unbound star precedes a bound one. Otherwise, if every bound star is settled (C99), it returns; stars that are unbound or above the curve and other particles get NaN; every star of a counter-rotating cell [-(k+1)/50,-k/50) goes to the spheroid; of the cell [k/50,(k+1)/50) the spheroid takes all stars if there are no more of them than in the mirrored cell, otherwise in each energy bin [j/20-1,(j+1)/20-1) as many as the mirrored cell holds there, or all if there are fewer, and the disc gets the rest. Cells and energy bins are those of the exact circularities and energies. Two analyses of one galaxy in other axes, with another origin, in another order and on other platforms give the same numbers of stars of each cell and energy bin to the spheroid and to the disc.", "quantifier": "every constructible galaxy whose exact values meet the stated conditions, every platform (summation, sorting, matrix product, backend), every generator and state, every rotation or reflection and shift", "why_tests_cant": "the shares involve every rounding from the potential to the edges of 100 cells and 20 energy bins and every random choice; the repository only compares stored labels of one galaxy", "anchors": ["galaxychop/models/_histogram.py:JEHistogram", "galaxychop/utils/_potential.py:potential", "galaxychop/utils/_center.py:center", "galaxychop/utils/_align.py:star_align", "galaxychop/utils/_circ.py:_jcirc", "galaxychop/models/_threshold.py:JThreshold.split", "galaxychop/models/_histogram.py:JHistogram.split", "galaxychop/models/_histogram.py:JEHistogram.split"]}
{"id": "C112", "title": "Whether a particle that is not a star is dark matter or gas does not matter", "statement": "Let two galaxies have the same stars and the same other particles in the same order (masses, positions, velocities, softenings, potentials), divided differently into dark matter and gas. Then potential (either backend), center, star_align (for a matrix product that treats every column alike), is_centered, is_star_aligned and jcirc treat them alike, bit for bit and error for error, and every decomposer of stars finds the same labels, probabilities and state of its generator; so does the whole analysis from the potential to the labels. The softening belongs to the set: a particle moved to a set with another softening can change the potential of the stars.", "quantifier": "all constructible galaxies, all divisions, all arithmetics, backends, cut-off radii, bins, decomposers of stars and generators", "why_tests_cant": "the frames of the three sets are concatenated and split again by counts and masks in five functions; tests use one division", "anchors": ["galaxychop/utils/_potential.py:potential", "galaxychop/utils/_center.py:center", "galaxychop/utils/_align.py:star_align", "galaxychop/utils/_align.py:_get_rot_matrix", "galaxychop/utils/_circ.py:_jcirc", "galaxychop/models/_base.py:GalaxyDecomposerABC.decompose", "galaxychop/models/_base.py:Components"]}
{"id": "C113", "title": "Massless particles that escape leave no trace", "statement": "Leave out of a galaxy any particles of dark matter or gas that have mass zero (test particles). If they are at a positive computed distance from the others (which holds for finite coordinates and a softening with a positive square) and the largest softening stays the same, then the Fortran potential of every other particle is the same to the last bit. If none of them has the lowest potential, center chooses the same origin, and star_align the same rotation. If none is bound in the aligned galaxy, jcirc returns the same result, and the stars get the same labels, probabilities and state of the generator, or the same error; the whole analysis says the same about the stars. A massless particle that is bound can change the label of a star.", "quantifier": "all binary64 galaxies with any number of such particles anywhere among the dark matter and the gas, any G, cut-off radius, matrix product that treats columns alike, decomposer of stars and generator; centre, alignment, circularity and labels in every arithmetic with monotone rounding", "why_tests_cant": "a sum with extra zeros keeps its bits only because no partial sum is ever minus zero, and the centre and the curve only because the particles are never selected; a sample shows neither", "anchors": ["galaxychop/utils/_potential.py:potential", "galaxychop/utils/fortran/potential.f95:fortran_potential", "galaxychop/utils/_center.py:center", "galaxychop/utils/_align.py:star_align", "galaxychop/utils/_align.py:_get_rot_matrix", "galaxychop/utils/_circ.py:_jcirc", "galaxychop/models/_base.py:GalaxyDecomposerABC.decompose", "galaxychop/models/_base.py:Components"]}
{"id": "C114", "title": "JThreshold, JHistogram and JEHistogram compared on one galaxy", "statement": "Decompose one galaxy with JThreshold, JHistogram and JEHistogram, with the same numpy steps for the curve. JThreshold and JHistogram classify the same particles; JEHistogram classifies no others, and the same ones if some bound particle has an energy other than zero. Every star with negative circularity is spheroid in all three (for JThreshold with a cut that is not negative). In every circularity bin, and in total, JEHistogram's spheroid has at most as many stars as JHistogram's, whatever the two generators draw. JHistogram's spheroid has at least the b stars with negative circularity and at most b + min(b, f), f the number with circularity from zero; with two bins it has exactly that many, so no number of bins gives a larger spheroid than two. If all bound energies are zero JEHistogram classifies nothing while the other two do.", "quantifier": "all constructible galaxies, bin widths, even numbers of bins, energy bins, seeds and generators that draw what was asked for, in exact arithmetic and in binary64 with any summation order", "why_tests_cant": "a comparison of three decomposers for every galaxy, every number of bins and every draw; a sample fixes all of them", "anchors": ["galaxychop/models/_threshold.py:JThreshold.split", "galaxychop/models/_histogram.py:JHistogram.split", "galaxychop/models/_histogram.py:JEHistogram"]}
{"id": "C115", "title": "Finer bins never give JHistogram a larger spheroid, if they subdivide the coarser ones", "statement": "Decompose one galaxy with JHistogram twice, with n and with k times n bins of circularity. If every k-th edge of the fine bins is an edge of the coarse bins and only one fine edge is zero, then in every coarse bin, and in total, the spheroid of the fine decomposition has at most as many stars as that of the coarse one, whatever the two generators draw. With the same decimals the coarse bins are always made of the fine ones in exact arithmetic, where no two fine edges are zero exactly if the number of fine bins is even and below 4*10^decimals, or below 2*10^decimals; in binary64 they are if the number of bins was doubled any number of times. Both conditions hold in binary64 for 2, 4, 10, 20 and 50 bins against the default 100. Without it the claim is false: six bins can give a larger spheroid than four.", "quantifier": "all constructible galaxies, bin widths of the curve, numbers of bins and factors k with k n up to 2^53, decimals, seeds and generators that draw what was asked for, in exact arithmetic and in binary64 with any summation order", "why_tests_cant": "two runs with independent draws are compared for every galaxy and every pair of nested bins; a sample fixes all of them", "anchors": ["galaxychop/models/_histogram.py:JHistogram.split", "galaxychop/models/_histogram.py:_make_corot_sph", "galaxychop/models/_histogram.py:_make_disk"]}
{"id": "C116", "title": "The number of energy bins of JEHistogram", "statement": "Decompose one galaxy with JEHistogram twice, with m and with k times m energy bins. If every k-th edge of the fine energy bins is an edge of the coarse ones, then in every bin of circularity, and in total, the spheroid of the fine decomposition has at most as many stars as that of the coarse one, whatever the two generators draw. The condition always holds in exact arithmetic, and in binary64 if the number of energy bins was doubled any number of times, and for 1, 2, 4, 5 and 10 energy bins against the default 20. With a single energy bin the spheroid of JEHistogram has in every bin of circularity, and in total, as many stars as that of JHistogram, if some bound particle has an energy other than zero. Without the conditions both claims are false: three energy bins can give a larger spheroid than two, and with all bound energies zero JEHistogram's spheroid is empty.", "quantifier": "all constructible galaxies, bin widths of the curve, numbers of bins, decimals, numbers of energy bins and factors k with k m up to 2^53, seeds and generators that draw what was asked for, in exact arithmetic and in binary64 with any summation order", "why_tests_cant": "two runs with independent draws are compared for every galaxy and every number of energy bins; a sample fixes all of them", "anchors": ["galaxychop/models/_histogram.py:JHistogram.split", "galaxychop/models/_histogram.py:JEHistogram", "galaxychop/models/_histogram.py:JEHistogram._make_corot_sph"]}
{"id": "C117", "title": "The tolerance c_bic of AutoGaussianMixture", "statement": "If AutoGaussianMixture succeeds in finding a number of Gaussians with a tolerance c_bic, then a larger tolerance finds one too, from the same trial fits, and never a larger one; if the number is the same, so are labels and probabilities. If the BIC per particle never rises from one number of Gaussians to the next, exactly the numbers from the chosen one up to 15 are good enough; if it rises somewhere that is false. A constant added to all the values does not change the choice in exact arithmetic; in binary64 it can.", "quantifier": "all data, fits, seeds, tolerances and orders in which the parallel fits finish, in exact arithmetic and in binary64 with any summation order", "why_tests_cant": "it holds for every outcome of fourteen random fits and every pair of tolerances; a test sees one fit of one data set", "anchors": ["galaxychop/models/_gaussian_mixture.py:AutoGaussianMixture.split"]}
{"id": "C118", "title": "Heavier surroundings or a smaller softening never raise a computed potential", "statement": "Let one particle be at the same place in two galaxies without potential. If the second galaxy has no larger softening and, apart from that particle, the same particles in the same order, none of them lighter, with any number of particles added anywhere, then the potential the Fortran backend computes for it is not higher in the second galaxy, bit for bit in single precision, and never positive; with the same kinetic energy its total energy is not higher, so that a bound particle stays bound. Strictly deeper it need not be: a distant particle can be rounded away.", "quantifier": "all constructible galaxies with finite non-negative masses and positive softened distances from the particle, positive G, every place at which particles are added, exact arithmetic and single precision", "why_tests_cant": "an inequality between two rounded sums with different terms, for all positions, masses and softenings; a test compares a few numbers up to a tolerance that hides a wrong last bit", "anchors": ["galaxychop/utils/_potential.py:potential", "galaxychop/utils/fortran/potential.f95:fortran_potential"]}
{"id": "C119", "title": "Cut-off radii of star_align that select the same stars", "statement": "Two cut-off radii that star_align accepts and that select the same stars give the same galaxy bit for bit, and is_star_aligned the same answer. In particular a positive cut-off above the computed distance of every star gives exactly what no cut-off gives; in exact arithmetic, one above the distance of every star. In binary64 the last is false: the square of a large coordinate overflows, and no finite cut-off includes such a star.", "quantifier": "all constructible galaxies, cut-offs and tolerances, in any arithmetic; the statements about distances in every rounded arithmetic", "why_tests_cant": "equality of two outputs for every pair of cut-offs and every galaxy; tests use one galaxy and do not reach the overflow", "anchors": ["galaxychop/utils/_align.py:star_align", "galaxychop/utils/_align.py:_get_rot_matrix", "galaxychop/utils/_align.py:is_star_aligned"]}
{"id": "C120", "title": "JHistogram and JEHistogram on some stars and on more stars", "statement": "Splitting a larger set of stars, with the circularities of the smaller set kept and in any order, never leaves a bin of the spheroid with fewer stars, whatever the two generators draw. Each added star brings at most two more stars to the spheroid, and the disk has at most one fewer for each. With JEHistogram no bin of the spheroid loses stars if every added star counter-rotates; otherwise it can, since a co-rotating bin fuller than its mirror joins the spheroid only with the mirror's energies: one co-rotating star more can take a whole bin out of the spheroid. The bound of two per added star fails for JEHistogram too.", "quantifier": "all eps (and energy) arrays with eps in [-1,1], all added stars and orders, n_bin and n_bin_E up to 2^53, digits >= 0 and generators", "why_tests_cant": "compares two runs with independent random draws for every set of stars and every addition", "anchors": ["galaxychop/models/_histogram.py:_make_corot_sph", "galaxychop/models/_histogram.py:_make_disk", "galaxychop/models/_histogram.py:JEHistogram"]}
