{
 "claims": [
  {
   "property": "C01",
   "status": "proved",
   "theorems": [
    "C01_mktype",
    "C01_inverse"
   ],
   "note": "any Python value of the modelled kinds; strings are ASCII"
  },
  {
   "property": "C02",
   "status": "proved",
   "theorems": [
    "C02_constructor",
    "C02_stored"
   ],
   "note": "exact acceptance condition and stored fields, in any arithmetic"
  },
  {
   "property": "C03",
   "status": "proved",
   "theorems": [
    "C03_derived",
    "C03_physics"
   ],
   "note": "operation order in any arithmetic; orthogonality and energy in exact arithmetic"
  },
  {
   "property": "C04",
   "status": "proved",
   "theorems": [
    "C04_galaxy",
    "C04_mkgalaxy_no_typeerror"
   ],
   "note": "all three outcomes of the Galaxy constructor; mkgalaxy never raises TypeError"
  },
  {
   "property": "C05",
   "status": "proved",
   "theorems": [
    "C05_round_trip",
    "C05_keys"
   ],
   "note": "round trip is equality of all stored fields"
  },
  {
   "property": "C06",
   "status": "proved",
   "theorems": [
    "C06_rows"
   ],
   "note": "row content of to_dataframe for every ptypes/attributes request"
  },
  {
   "property": "C07",
   "status": "proved",
   "theorems": [
    "C07_columns",
    "C07_particle_set"
   ],
   "note": "success condition, error kinds and column order"
  },
  {
   "property": "C08",
   "status": "proved",
   "theorems": [
    "C08_guard"
   ],
   "note": ""
  },
  {
   "property": "C09",
   "status": "proved",
   "theorems": [
    "C09_translation"
   ],
   "note": ""
  },
  {
   "property": "C10",
   "status": "proved",
   "theorems": [
    "C10_origin"
   ],
   "note": "rtol may be any finite number, atol any non-negative one"
  },
  {
   "property": "C11",
   "status": "proved",
   "theorems": [
    "C11_idempotent"
   ],
   "note": "bit-exact"
  },
  {
   "property": "C12",
   "status": "proved",
   "theorems": [
    "C12_invariance",
    "C12_separation"
   ],
   "note": "exact arithmetic"
  },
  {
   "property": "C13",
   "status": "proved",
   "theorems": [
    "C13_guard",
    "C13_frame"
   ],
   "note": "any arithmetic, NaN cut-offs included"
  },
  {
   "property": "C14",
   "status": "proved",
   "theorems": [
    "C14_rotation"
   ],
   "note": "exact arithmetic"
  },
  {
   "property": "C15",
   "status": "proved",
   "theorems": [
    "C15_aligned"
   ],
   "note": "exact arithmetic"
  },
  {
   "property": "C16",
   "status": "proved",
   "theorems": [
    "C16_isometry"
   ],
   "note": "exact arithmetic"
  },
  {
   "property": "C17",
   "status": "proved",
   "theorems": [
    "C17_nan",
    "C17_twice",
    "C17_no_star"
   ],
   "note": "every rounded arithmetic, binary64 included; idempotence is false and the failure is characterised"
  },
  {
   "property": "C18",
   "status": "proved",
   "theorems": [
    "C18_meaning",
    "C18_exact",
    "C18_no_negative"
   ],
   "note": "exact arithmetic"
  },
  {
   "property": "C19",
   "status": "proved",
   "theorems": [
    "C19_errors",
    "C19_result",
    "C19_backends"
   ],
   "note": "every backend table and number type; float32 results are represented by the equal float64 values"
  },
  {
   "property": "C20",
   "status": "proved",
   "theorems": [
    "C20_schedule",
    "C20_terminates",
    "C20_sequential"
   ],
   "note": "small-step model of the OpenMP loop: every interleaving of private/shared reads and writes, any initial contents of the output; left-to-right sum without fused multiply-add"
  },
  {
   "property": "C21",
   "status": "proved",
   "theorems": [
    "C21_value",
    "C21_agree",
    "C21_depends",
    "C21_float",
    "C21_coincident"
   ],
   "note": "agreement, dependence and coincidence in exact arithmetic for finite galaxies; NaN memory in single precision for every galaxy"
  },
  {
   "property": "C22",
   "status": "proved",
   "theorems": [
    "C22_value",
    "C22_negative",
    "C22_translate_scale",
    "C22_permute"
   ],
   "note": "exact arithmetic, Fortran backend; any real G (positive for the sign)"
  },
  {
   "property": "C23",
   "status": "proved",
   "theorems": [
    "C23_softening",
    "C23_unique",
    "C23_empty"
   ],
   "note": "observed through the argument of an arbitrary backend; any rounded arithmetic"
  },
  {
   "property": "C24",
   "status": "proved",
   "theorems": [
    "C24_eps"
   ],
   "note": "every rounded arithmetic, every bins for which jcirc returns"
  },
  {
   "property": "C25",
   "status": "proved",
   "theorems": [
    "C25_bounded"
   ],
   "note": "every rounded arithmetic"
  },
  {
   "property": "C26",
   "status": "proved",
   "theorems": [
    "C26_unbound"
   ],
   "note": "every rounded arithmetic"
  },
  {
   "property": "C27",
   "status": "proved",
   "theorems": [
    "C27_edges",
    "C27_exact",
    "C27_default",
    "C27_bins_refuted"
   ],
   "note": "for edges that start at -1 and never decrease (any rounded arithmetic), for the default bins in binary64, for positive bins in exact arithmetic; refuted in binary64 for bin0=0.03 (C27_bins_refuted)"
  },
  {
   "property": "C28",
   "status": "proved",
   "theorems": [
    "C28_points"
   ],
   "note": "any sort permutation, ties broken arbitrarily per call"
  },
  {
   "property": "C29",
   "status": "proved",
   "theorems": [
    "C29_errors"
   ],
   "note": "every rounded arithmetic"
  },
  {
   "property": "C30",
   "status": "proved",
   "theorems": [
    "C30_prefix",
    "C30_fails",
    "C30_returns"
   ],
   "note": "for bins whose two aranges succeed and are not both empty"
  },
  {
   "property": "C31",
   "status": "proved",
   "theorems": [
    "C31_lengths"
   ],
   "note": "also characterises when JCirc.isfinite succeeds"
  },
  {
   "property": "C32",
   "status": "proved",
   "theorems": [
    "C32_full",
    "C32_dropped",
    "C32_populated_refuted"
   ],
   "note": "C32_populated_refuted is the witness with a lost populated bin and a NaN circular orbit"
  },
  {
   "property": "C33",
   "status": "proved",
   "theorems": [
    "C33_orbits",
    "C33_mass",
    "C33_rotation"
   ],
   "note": "mass and softening independence in any rounded arithmetic; rotation in exact arithmetic"
  },
  {
   "property": "C34",
   "status": "proved",
   "theorems": [
    "C34_value"
   ],
   "note": "exact arithmetic, bound particles with finite angular momenta, not all energies zero"
  },
  {
   "property": "C35",
   "status": "proved",
   "theorems": [
    "C35_aligned",
    "C35_succeeds"
   ],
   "note": "Any class (mask and split arbitrary) and any state of its generator. one_row_each excludes normalized_star_Jz without another circularity attribute when a star is unbound; see C37_alignment_refuted."
  },
  {
   "property": "C36",
   "status": "proved",
   "theorems": [
    "C36_labels",
    "C36_probs",
    "C36_errors",
    "C36_mask",
    "C36_decompose"
   ],
   "note": "complete_labels/complete_probs for every mask; end-to-end statement for classes that use the stars mixin; error cases."
  },
  {
   "property": "C37",
   "status": "proved",
   "theorems": [
    "C37_matrix",
    "C37_located",
    "C37_errors",
    "C37_alignment_refuted"
   ],
   "note": "Proved under one_row_each; C37_alignment_refuted exhibits the misaligned matrix otherwise (normalized_star_Jz alone with an unbound star). C37_errors says when a matrix exists at all."
  },
  {
   "property": "C38",
   "status": "proved",
   "theorems": [
    "C38_construct",
    "C38_frame",
    "C38_attributes"
   ],
   "note": "Arrays are modelled as lists; probabilities as a width and rows of that width."
  },
  {
   "property": "C39",
   "status": "proved",
   "theorems": [
    "C39_cbins",
    "C39_eps_cut"
   ],
   "note": "Python values: None, bool, int, float, str, enum members, tuples, other sequences and other objects. numpy arrays as hyper-parameters are not modelled."
  },
  {
   "property": "C40",
   "status": "proved",
   "theorems": [
    "C40_rule",
    "C40_total",
    "C40_monotone",
    "C40_constructed",
    "C40_uninitialised"
   ],
   "note": "np.empty is modelled as an arbitrary function of the position (junk); the theorems hold for every such function."
  },
  {
   "property": "C41",
   "status": "proved",
   "theorems": [
    "C41_labels",
    "C41_decompose"
   ],
   "note": "For exact arithmetic (RX) and binary64 (F64s) with n_bin up to 2^53. The generator is any function that draws without replacement."
  },
  {
   "property": "C42",
   "status": "proved",
   "theorems": [
    "C42_composition"
   ],
   "note": "Same scope as C41; the edges are those of np.histogram rounded by np.round."
  },
  {
   "property": "C43",
   "status": "proved",
   "theorems": [
    "C43_returns",
    "C43_exact",
    "C43_even",
    "C43_even_refuted",
    "C43_negative",
    "C43_decompose"
   ],
   "note": "C43_exact gives the closed form in exact arithmetic; C43_even_refuted is the 16-digit witness in binary64."
  },
  {
   "property": "C44",
   "status": "proved",
   "theorems": [
    "C44_reproducible_energy",
    "C44_no_draw",
    "C44_counts",
    "C44_reproducible",
    "C44_repeated_call_refuted"
   ],
   "note": "C44_repeated_call_refuted: two calls of decompose on one object with the default parameters give different labels for the sample galaxy."
  },
  {
   "property": "C45",
   "status": "proved",
   "theorems": [
    "C45_labels",
    "C45_decompose",
    "C45_composition"
   ],
   "note": "C45_decompose: at the decompose level usable means star with finite energy and circularity."
  },
  {
   "property": "C46",
   "status": "proved",
   "theorems": [
    "C46_exact",
    "C46_no_zero",
    "C46_no_bins",
    "C46_returns_refuted"
   ],
   "note": "C46_exact characterises the failing inputs; C46_returns_refuted is a galaxy that fails with the default parameters whatever the generator."
  },
  {
   "property": "C47",
   "status": "proved",
   "theorems": [
    "C47_regions",
    "C47_grouping",
    "C47_returns",
    "C47_total",
    "C47_most_probable"
   ],
   "note": "scikit-learn's fitted mixture is arbitrary. C47_total is in exact arithmetic and needs centres that are numbers; EX_C47_nan shows what happens otherwise."
  },
  {
   "property": "C48",
   "status": "proved",
   "theorems": [
    "C48_selection",
    "C48_failures",
    "C48_order",
    "C48_exact",
    "C48_exists_refuted"
   ],
   "note": "C48_exists_refuted: in binary64 fourteen equal values with c_bic = 0 leave no candidate (the mean of the last five rounds below them), so existence holds in exact arithmetic only (C48_exact)."
  },
  {
   "property": "C49",
   "status": "proved",
   "theorems": [
    "C49_kmeans",
    "C49_mixture",
    "C49_auto",
    "C49_kmeans_outcome",
    "C49_mixture_outcome",
    "C49_auto_outcome"
   ],
   "note": "The estimators are oracles; random_state is modelled as the state of the generator handed to them. C49_*_outcome: exceptions pass through and a well-shaped answer is returned."
  },
  {
   "property": "C50",
   "status": "proved",
   "theorems": [
    "C50_round_trip",
    "C50_nan",
    "C50_every_refuted"
   ],
   "note": "C50_nan and C50_every_refuted: with a NaN among the stored values the file is written but cannot be read back. Assumes astropy stores a column with missing values as data plus mask column (DESIGN.md)."
  },
  {
   "property": "C51",
   "status": "proved",
   "theorems": [
    "C51_last_wins"
   ],
   "note": "The history may contain disturbed calls and any options; names of objects in a file are assumed distinct."
  },
  {
   "property": "C52",
   "status": "proved",
   "theorems": [
    "C52_crash",
    "C52_mixed",
    "C52_gone",
    "C52_no_overwrite",
    "C52_atomic_refuted"
   ],
   "note": "C52_atomic_refuted is the concrete failure of atomicity; C52_crash covers every disturbance, C52_mixed and C52_gone the two kinds of crash point."
  },
  {
   "property": "C53",
   "status": "proved",
   "theorems": [
    "C53_metadata"
   ],
   "note": "Metadata values are an arbitrary type."
  },
  {
   "property": "C54",
   "status": "proved",
   "theorems": [
    "C54_meaning",
    "C54_returns",
    "C54_errors",
    "C54_order",
    "C54_id"
   ],
   "note": "np.load is outside the model: matrices and potential vectors are given as loaded."
  },
  {
   "property": "C55",
   "status": "proved",
   "theorems": [
    "C55_dispatch"
   ],
   "note": "Every string; the callable attributes are the eight plot kinds."
  },
  {
   "property": "C56",
   "status": "proved",
   "theorems": [
    "C56_rows",
    "C56_columns",
    "C56_errors",
    "C56_blank",
    "C56_components",
    "C56_length_refuted"
   ],
   "note": "Rows, columns, labels, mapping and errors for every galaxy and label form. The first wording (a wrong length always raises) is refuted by C56_length_refuted: an empty frame accepts any length. pandas' set_index alignment is out of scope: labels are plain arrays."
  },
  {
   "property": "C57",
   "status": "proved",
   "theorems": [
    "C57_rows",
    "C57_own",
    "C57_errors",
    "C57_blank",
    "C57_decompose",
    "C57_exact",
    "C57_planar_refuted"
   ],
   "note": "Positional pairing, own-star labels for a stars decomposer, errors and the empty case. C57_planar_refuted: in a planar galaxy eps is finite but eps_r is NaN, so labelled stars are drawn as NaN rows. C57_exact: in exact arithmetic the two filters agree."
  },
  {
   "property": "C58",
   "status": "proved",
   "theorems": [
    "C58_matter",
    "C58_potential",
    "C58_revert_refuted",
    "C58_rigid",
    "C58_rigid_keeps"
   ],
   "note": "Sessions of calls in any order; exceptions leave the galaxy as it was. The first wording (has_potential never reverts) is refuted by C58_revert_refuted: loading an older file removes the potentials. C58_rigid is over exact arithmetic."
  },
  {
   "property": "C59",
   "status": "proved",
   "theorems": [
    "C59_header",
    "C59_blank",
    "C59_blank_refuted",
    "C59_nothing",
    "C59_rest",
    "C59_boundary_refuted",
    "C59_command",
    "C59_command_errors"
   ],
   "note": "Proved for templates whose last line is not blank and files without unusual line boundaries in the lines compared; C59_blank and C59_blank_refuted: a template of two or more lines ending in a blank line accepts no ordinary file; C59_boundary_refuted: form feeds and the like make the two ways of splitting lines disagree. Also the command's exit code and report."
  },
  {
   "property": "C60",
   "status": "proved",
   "theorems": [
    "C60_complete",
    "C60_calls",
    "C60_options"
   ],
   "note": "Seaborn itself is an oracle: the theorems describe the call it gets."
  },
  {
   "property": "C61",
   "status": "proved",
   "theorems": [
    "C61_stays_centred",
    "C61_both",
    "C61_order_refuted"
   ],
   "note": "C61_stays_centred for every rounded arithmetic; C61_both exact; C61_order_refuted shows the other order fails (double precision)."
  },
  {
   "property": "C62",
   "status": "proved",
   "theorems": [
    "C62_rigid",
    "C62_align"
   ],
   "note": "Exact arithmetic, Fortran backend, no two particles at zero softened distance."
  },
  {
   "property": "C63",
   "status": "proved",
   "theorems": [
    "C63_pair_sum",
    "C63_casts",
    "C63_potential"
   ],
   "note": "Error relative to the exact potential of the float32-converted inputs; the error of the conversion of the positions is not part of the bound. No fused multiply-add; the loop of each particle in index order (C20 covers the parallel schedules)."
  },
  {
   "property": "C64",
   "status": "proved",
   "theorems": [
    "C64_derived",
    "C64_formats"
   ],
   "note": "Stated for finite moderate values; the bounds are absolute where terms may cancel."
  },
  {
   "property": "C65",
   "status": "proved",
   "theorems": [
    "C65_construct",
    "C65_errors",
    "C65_rebuild",
    "C65_threshold"
   ],
   "note": "Which seeds default_rng accepts is an argument. The tables of documented defaults are spelt out per class in SpecCtor.v and compared with the fields attrs collects along the bases."
  },
  {
   "property": "C66",
   "status": "proved",
   "theorems": [
    "C66_equal",
    "C66_class",
    "C66_same_seed_refuted"
   ],
   "note": "Equality of values other than generators is an argument, assumed reflexive (tuples compare identical objects as equal). C66_same_seed_refuted: KMeans(random_state=42) twice gives unequal objects."
  },
  {
   "property": "C67",
   "status": "proved",
   "theorems": [
    "C67_printed",
    "C67_galaxy",
    "C67_set",
    "C67_decomposer",
    "C67_angular"
   ],
   "note": "Formatting of the softening and of hyper-parameter values is an argument; units are left out. Components.__repr__ is not modelled (it prints a numpy array)."
  },
  {
   "property": "C68",
   "status": "proved",
   "theorems": [
    "C68_turned",
    "C68_aligned",
    "C68_double",
    "C68_default",
    "C68_every_refuted",
    "C68_cut",
    "C68_cut_aligned",
    "C68_edge_refuted"
   ],
   "note": "The sum of numpy is an argument with a stated error factor; adding one after the other has factor 2 n (C68_double). C68_every_refuted: nearly radial orbit, defaults, answer False. C68_edge_refuted: a star one unit of rounding inside the cut-off leaves it by the rotation."
  },
  {
   "property": "C69",
   "status": "proved",
   "theorems": [
    "C69_values",
    "C69_center",
    "C69_align",
    "C69_potential"
   ],
   "note": "uttrs converters, validators and arr_ are modelled as documented; the conversion function is a parameter."
  },
  {
   "property": "C70",
   "status": "proved",
   "theorems": [
    "C70_stored",
    "C70_derived",
    "C70_kinetic_energy",
    "C70_round_trip",
    "C70_center",
    "C70_align",
    "C70_potential",
    "C70_potential_energy_refuted",
    "C70_softening_refuted"
   ],
   "note": "Two statements of the documentation are refuted by witnesses."
  },
  {
   "property": "C71",
   "status": "proved",
   "theorems": [
    "C71_order",
    "C71_accuracy",
    "C71_separation",
    "C71_distinct_refuted",
    "C71_translation_refuted"
   ],
   "note": "Two stronger claims (injectivity, translation invariance in floats) are refuted by witnesses."
  },
  {
   "property": "C72",
   "status": "proved",
   "theorems": [
    "C72_order",
    "C72_sort",
    "C72_ties_refuted"
   ],
   "note": "The claim without the no-ties hypothesis is refuted by a witness."
  },
  {
   "property": "C73",
   "status": "proved",
   "theorems": [
    "C73_mirror",
    "C73_unbound",
    "C73_scale"
   ],
   "note": "Scaling is stated in exact arithmetic; in floating point it holds only up to rounding."
  },
  {
   "property": "C74",
   "status": "proved",
   "theorems": [
    "C74_node",
    "C74_default"
   ],
   "note": ""
  },
  {
   "property": "C75",
   "status": "proved",
   "theorems": [
    "C75_factor",
    "C75_mass",
    "C75_scale",
    "C75_mirror",
    "C75_order",
    "C75_units_refuted"
   ],
   "note": "Exactness of the change of units holds in exact arithmetic only; in binary64 the other statements hold. Units that are powers of two: C100, C101."
  },
  {
   "property": "C76",
   "status": "proved",
   "theorems": [
    "C76_align",
    "C76_frame",
    "C76_potential",
    "C76_motion_refuted"
   ],
   "note": "Exact arithmetic; the rounding errors of centring and aligning are bounded in C68 and C71. The alignment must be possible in both systems (C17 shows what happens otherwise)."
  },
  {
   "property": "C77",
   "status": "proved",
   "theorems": [
    "C77_unique",
    "C77_labels",
    "C77_threshold",
    "C77_printed"
   ],
   "note": "The text NumPy gives an array is a parameter, as is its sort (required to sort)."
  },
  {
   "property": "C78",
   "status": "proved",
   "theorems": [
    "C78_exact",
    "C78_default",
    "C78_float_refuted",
    "C78_no_spheroid"
   ],
   "note": "C78_float_refuted and C78_no_spheroid are about parameters the user chooses; the defaults are not affected."
  },
  {
   "property": "C79",
   "status": "proved",
   "theorems": [
    "C79_counts",
    "C79_net"
   ],
   "note": "The counts hold in exact and binary64 arithmetic, the sums in exact arithmetic."
  },
  {
   "property": "C80",
   "status": "proved",
   "theorems": [
    "C80_bins",
    "C80_default",
    "C80_units",
    "C80_eps_refuted"
   ],
   "note": "C80_eps_refuted shows that eps itself can be off by more than 1/2 close to an energy where the curve is zero."
  },
  {
   "property": "C81",
   "status": "proved",
   "theorems": [
    "C81_kept",
    "C81_labels"
   ],
   "note": "The margin is in units of the largest Jz; C80_eps_refuted shows that a margin on Jz/Jcirc alone is not enough."
  },
  {
   "property": "C82",
   "status": "proved",
   "theorems": [
    "C82_net",
    "C82_stars",
    "C82_galaxy"
   ],
   "note": "The rows of the matrix given to split are matched with the stars by their rank; the widths and the symmetry of the default edges are computed exactly in binary64."
  },
  {
   "property": "C83",
   "status": "proved",
   "theorems": [
    "C83_shares",
    "C83_number",
    "C83_label_refuted"
   ],
   "note": "c83_label_refuted: probabilities 0.1 and 0.2 in the cold disk against fl(0.1+0.2) in the warm disk, which has the greater exact share but loses. For c83_number np.sum of the last five values is the plain left-to-right loop numpy uses below eight elements."
  },
  {
   "property": "C84",
   "status": "proved",
   "theorems": [
    "C84_potential",
    "C84_shift_refuted"
   ],
   "note": "C63 bounds the error relative to the converted inputs; here the conversion is included. Softened distances are norms in four dimensions (Minkowski)."
  },
  {
   "property": "C85",
   "status": "proved",
   "theorems": [
    "C85_jhistogram",
    "C85_jehistogram",
    "C85_edge_refuted"
   ],
   "note": "Comparisons of each value with the computed and with the exact edges are shown to agree; labels follow from the comparisons only. Default parameters; for other numbers of bins see C105."
  },
  {
   "property": "C86",
   "status": "proved",
   "theorems": [
    "C86_numpy",
    "C86_backends",
    "C86_order_refuted"
   ],
   "note": "Sums of non-negative numbers by any binary tree. Entries off the diagonal are always computed because no softened distance rounds to zero. added is the specification of a summation order."
  },
  {
   "property": "C87",
   "status": "proved",
   "theorems": [
    "C87_decompose",
    "C87_same",
    "C87_softening_refuted"
   ],
   "note": "Combines C50 (round trip), C75 (masses and softenings do not matter to a decomposition) and the pipeline. HDF5 as in Io.v: named objects, no bytes."
  },
  {
   "property": "C88",
   "status": "proved",
   "theorems": [
    "C88_self",
    "C88_separate",
    "C88_many",
    "C88_hash",
    "C88_components",
    "C88_comp_separate",
    "C88_contents_refuted"
   ],
   "note": "Object identity is part of the model (Equal.v). Tuple comparison takes identical items as equal; truth of an array with other than one entry as in numpy."
  },
  {
   "property": "C89",
   "status": "proved",
   "theorems": [
    "C89_test",
    "C89_unsoftened",
    "C89_schedule",
    "C89_tng",
    "C89_agree"
   ],
   "note": "Text formatting is not modelled."
  },
  {
   "property": "C90",
   "status": "proved",
   "theorems": [
    "C90_version",
    "C90_plain",
    "C90_default",
    "C90_extension",
    "C90_literal_refuted"
   ],
   "note": "Packaging metadata other than version and extension is not modelled."
  },
  {
   "property": "C91",
   "status": "proved",
   "theorems": [
    "C91_kernel",
    "C91_fma32",
    "C91_plain",
    "C91_others",
    "C91_potential",
    "C91_given",
    "C91_bits_refuted"
   ],
   "note": "Other reorderings (only made under -ffast-math, which setup.py does not pass) are not covered."
  },
  {
   "property": "C92",
   "status": "proved",
   "theorems": [
    "C92_tuples",
    "C92_frame",
    "C92_center",
    "C92_potential",
    "C92_pairs"
   ],
   "note": "Tuples without units; units of these tuples are in C70."
  },
  {
   "property": "C93",
   "status": "proved",
   "theorems": [
    "C93_chain",
    "C93_double"
   ],
   "note": "np.dot is modelled as products added from left to right, as in C68; any other way: C94. With a cut-off radius: C103."
  },
  {
   "property": "C94",
   "status": "proved",
   "theorems": [
    "C94_frame",
    "C94_plain",
    "C94_turned",
    "C94_aligned",
    "C94_chain",
    "C94_exact",
    "C94_fma64",
    "C94_double",
    "C94_bits_refuted"
   ],
   "note": "the rotation matrix itself is computed with np.sum and scalar operations as in C68; C94_bits_refuted is the witness that the bits depend on the library"
  },
  {
   "property": "C95",
   "status": "proved",
   "theorems": [
    "C95_unique",
    "C95_center",
    "C95_centered",
    "C95_aligned",
    "C95_defaults",
    "C95_overflow_refuted"
   ],
   "note": "np.isclose as in NumPy before 1.25 (later versions differ only for infinite or negative tolerances); C95_overflow_refuted is the witness of the last sentence"
  },
  {
   "property": "C96",
   "status": "proved",
   "theorems": [
    "C96_bins",
    "C96_default",
    "C96_exact",
    "C96_gentle",
    "C96_labels",
    "C96_margin_refuted"
   ],
   "note": "the margin is needed: C96_margin_refuted is the witness of the last sentence"
  },
  {
   "property": "C97",
   "status": "proved",
   "theorems": [
    "C97_labels",
    "C97_plain",
    "C97_all"
   ],
   "note": "default energy bins, no cut-off radius in the alignment (C103 has one); the conditions on the total angular momentum of the stars and the ranges of the numbers are those of C84 and C93"
  },
  {
   "property": "C98",
   "status": "proved",
   "theorems": [
    "C98_widths",
    "C98_negative",
    "C98_infinite"
   ],
   "note": "widths between 2^-67 and 2^-59 in size are left out, as are arrays that fit the address space but not the memory"
  },
  {
   "property": "C99",
   "status": "proved",
   "theorems": [
    "C99_decompose",
    "C99_counts",
    "C99_exists",
    "C99_all"
   ],
   "note": "the counts per cell are stated for JHistogram; for JEHistogram the theorem gives the exact outcome, whose composition is that of C45; with a cut-off radius: C103"
  },
  {
   "property": "C100",
   "status": "proved",
   "theorems": [
    "C100_jcirc",
    "C100_labels",
    "C100_center",
    "C100_align",
    "C100_chain",
    "C100_left_to_right",
    "C100_range_refuted"
   ],
   "note": "complements C75: a factor of three does change labels"
  },
  {
   "property": "C101",
   "status": "proved",
   "theorems": [
    "C101_potential",
    "C101_whole",
    "C101_left_to_right",
    "C101_range_refuted"
   ],
   "note": "numpy backend with uninitialised entries taken as zero (see C21 for what they do)"
  },
  {
   "property": "C102",
   "status": "proved",
   "theorems": [
    "C102_columns",
    "C102_center",
    "C102_align",
    "C102_fast"
   ],
   "note": "exact arithmetic; that the labels change even at low speed is c76's refutation (binary64)"
  },
  {
   "property": "C103",
   "status": "proved",
   "theorems": [
    "C103_labels",
    "C103_all",
    "C103_decompose",
    "C103_counts",
    "C103_chain",
    "C103_plain"
   ],
   "note": "a star within a relative 30000 u of the radius may be counted on either side; cf. C68 and C93 for the parts"
  },
  {
   "property": "C104",
   "status": "proved",
   "theorems": [
    "C104_matrix",
    "C104_classes",
    "C104_all"
   ],
   "note": "the clustering itself (scikit-learn) is any function of the matrix; AutoGaussianMixture's own loop is that of C47 and C48"
  },
  {
   "property": "C105",
   "status": "proved",
   "theorems": [
    "C105_edges",
    "C105_jhistogram",
    "C105_jehistogram",
    "C105_mirror"
   ],
   "note": "generalises C85 (default parameters)"
  },
  {
   "property": "C106",
   "status": "proved",
   "theorems": [
    "C106_idle",
    "C106_dark",
    "C106_second_refuted"
   ],
   "note": "the refutation is for the default bins in binary64"
  },
  {
   "property": "C107",
   "status": "proved",
   "theorems": [
    "C107_decompose",
    "C107_cut",
    "C107_all"
   ],
   "note": "default energy bins of the circularity curve; the conditions on the galaxy are those of C99 and C103"
  },
  {
   "property": "C108",
   "status": "proved",
   "theorems": [
    "C108_labels",
    "C108_cells"
   ],
   "note": "default bins; stars inside the margin and ties are excluded by the hypotheses; the error when an unbound star precedes a bound one does depend on the order (C97)"
  },
  {
   "property": "C109",
   "status": "proved",
   "theorems": [
    "C109_sums",
    "C109_products",
    "C109_potential",
    "C109_center",
    "C109_align",
    "C109_circularity",
    "C109_methods",
    "C109_labels",
    "C109_given",
    "C109_whole"
   ],
   "note": "round to nearest; odd sums proved for every order fixed by the length and odd matrix products for the two of Dgemm.v; the clustering methods of scikit-learn are covered only if zero_blind"
  },
  {
   "property": "C110",
   "status": "proved",
   "theorems": [
    "C110_exact",
    "C110_labels",
    "C110_cells"
   ],
   "note": "round to nearest; conditions that depend on the axes (range of coordinates, in-plane spin, resolution) are gathered in fits_axes; JEHistogram: C111"
  },
  {
   "property": "C111",
   "status": "proved",
   "theorems": [
    "C111_counts",
    "C111_all",
    "C111_axes"
   ],
   "note": "default numbers of bins; labels of single stars in the co-rotating cells depend on the generator and are not claimed"
  },
  {
   "property": "C112",
   "status": "proved",
   "theorems": [
    "C112_products",
    "C112_potential",
    "C112_center",
    "C112_align",
    "C112_checks",
    "C112_circularity",
    "C112_labels",
    "C112_whole",
    "C112_softening_refuted"
   ],
   "note": "C112_softening_refuted is the witness of the last sentence; decomposers that use circularity attributes other than normalized_star_Jz (see C37)"
  },
  {
   "property": "C113",
   "status": "proved",
   "theorems": [
    "C113_softened",
    "C113_potential",
    "C113_center",
    "C113_align",
    "C113_circularity",
    "C113_labels",
    "C113_whole",
    "C113_bound_refuted"
   ],
   "note": "Fortran backend, run as in potential.f95 (C20 for the parallel loop). C113_bound_refuted is the witness of the last sentence."
  },
  {
   "property": "C114",
   "status": "proved",
   "theorems": [
    "C114_who",
    "C114_backward",
    "C114_cells",
    "C114_sizes",
    "C114_coarse",
    "C114_who_refuted"
   ],
   "note": "C114_who_refuted is the witness of the last sentence."
  },
  {
   "property": "C115",
   "status": "proved",
   "theorems": [
    "C115_finer",
    "C115_edges",
    "C115_finer_refuted"
   ],
   "note": "C115_finer_refuted is the witness of the last sentence; EX_C115_nested checks the condition for the default."
  },
  {
   "property": "C116",
   "status": "proved",
   "theorems": [
    "C116_finer",
    "C116_one",
    "C116_edges",
    "C116_finer_refuted",
    "C116_one_refuted"
   ],
   "note": "Both runs are assumed to return; C46 says exactly when split raises. C116_finer_refuted and C116_one_refuted are the witnesses of the last sentence."
  },
  {
   "property": "C117",
   "status": "proved",
   "theorems": [
    "C117_monotone",
    "C117_settled",
    "C117_offset",
    "C117_offset_refuted",
    "C117_settled_refuted"
   ],
   "note": "scikit-learn's fits are arbitrary functions. C117_offset is exact arithmetic; C117_offset_refuted and C117_settled_refuted are the witnesses of the two false variants."
  },
  {
   "property": "C118",
   "status": "proved",
   "theorems": [
    "C118_deeper",
    "C118_strict_refuted"
   ],
   "note": "Generic in the arithmetic: every operation rounds monotonically; reading a float32 as float64 keeps its value (C63_casts). Left-to-right sum without fused multiply-add. C118_strict_refuted is the witness of the last sentence."
  },
  {
   "property": "C119",
   "status": "proved",
   "theorems": [
    "C119_same",
    "C119_all",
    "C119_exact",
    "C119_overflow_refuted"
   ],
   "note": "C119_overflow_refuted is the witness of the last sentence: a star at 2^600 and the cut-off 2^700."
  },
  {
   "property": "C120",
   "status": "proved",
   "theorems": [
    "C120_more",
    "C120_energy",
    "C120_energy_refuted",
    "C120_growth_refuted"
   ],
   "note": "For the split methods of JHistogram and JEHistogram. In decompose new particles may also change the reference curve and with it eps, which this does not cover. Exact arithmetic and binary64. C120_energy_refuted and C120_growth_refuted are the witnesses for JEHistogram with its default parameters."
  }
 ]
}
