{
 "claims": [
  {
   "property": "C01",
   "status": "proved",
   "theorems": [
    "C01_basis_enumerates"
   ],
   "note": "Enumeration is complete, duplicate free and contains nothing else."
  },
  {
   "property": "C02",
   "status": "proved",
   "theorems": [
    "C02_comb_factorial",
    "C02_basis_size"
   ],
   "note": "Size, error cases and empty fillings; binomials tied to factorials."
  },
  {
   "property": "C03",
   "status": "proved",
   "theorems": [
    "C03_index_inverts"
   ],
   "note": "For every listing of the same occupation."
  },
  {
   "property": "C04",
   "status": "proved",
   "theorems": [
    "C04_hash_basis",
    "C04_hash_basis_past_end"
   ],
   "note": "Termination is part of the statement (fuel never runs out)."
  },
  {
   "property": "C05",
   "status": "proved",
   "theorems": [
    "C05_target_hash"
   ],
   "note": "Fuel never runs out."
  },
  {
   "property": "C06",
   "status": "proved",
   "theorems": [
    "C06_index_bijective_monotone"
   ],
   "note": "Bijection and lexicographic monotonicity."
  },
  {
   "property": "C07",
   "status": "proved",
   "theorems": [
    "C07_reorder"
   ],
   "note": ""
  },
  {
   "property": "C08",
   "status": "proved",
   "theorems": [
    "C08_lookup",
    "C08_groups_partition",
    "C08_bad_spin"
   ],
   "note": "For every set order and every pair of restrictions."
  },
  {
   "property": "C09",
   "status": "proved",
   "theorems": [
    "C09_reverse_spins",
    "C09_reverse_spins_basis",
    "C09_restricted_refuted"
   ],
   "note": "Unrestricted case proved; restricted case refuted with a 2x2 witness."
  },
  {
   "property": "C10",
   "status": "proved",
   "theorems": [
    "C10_reverse_vect",
    "C10_norm"
   ],
   "note": "For vectors over any type; sum of squares over rationals."
  },
  {
   "property": "C11",
   "status": "proved",
   "theorems": [
    "C11_extend"
   ],
   "note": ""
  },
  {
   "property": "C12",
   "status": "proved",
   "theorems": [
    "C12_rotation_square",
    "C12_rotation_group",
    "C12_half_turn",
    "C12_non_square_refuted"
   ],
   "note": "Squares and half turns proved; odd rotations of a 2x1 rectangle refuted."
  },
  {
   "property": "C13",
   "status": "proved",
   "theorems": [
    "C13_rectangular"
   ],
   "note": "All sizes."
  },
  {
   "property": "C14",
   "status": "proved",
   "theorems": [
    "C14_ring"
   ],
   "note": "All sizes, ring alone and ring with block."
  },
  {
   "property": "C15",
   "status": "proved",
   "theorems": [
    "C15_blocks"
   ],
   "note": "All sizes."
  },
  {
   "property": "C16",
   "status": "proved",
   "theorems": [
    "C16_neighbors",
    "C16_neighbors_nested",
    "C16_bond_list",
    "C16_bond_list_default"
   ],
   "note": "For every set order; error cases included."
  },
  {
   "property": "C17",
   "status": "proved",
   "theorems": [
    "C17_second_neighbors",
    "C17_diagonal_neighbors"
   ],
   "note": "All rectangles."
  },
  {
   "property": "C18",
   "status": "proved",
   "theorems": [
    "C18_straight",
    "C18_errors"
   ],
   "note": "All rectangles; error cases included."
  },
  {
   "property": "C19",
   "status": "proved",
   "theorems": [
    "C19_ring_straight",
    "C19_thin_refuted"
   ],
   "note": "Both sides at least 2; thinner blocks refuted."
  },
  {
   "property": "C20",
   "status": "proved",
   "theorems": [
    "C20_clusters_straight",
    "C20_graph_determined",
    "C20_not_found"
   ],
   "note": "For every relabelling found by the search; the eigenvector search itself is an oracle. Without one, the last candidate is used and may raise IndexError."
  },
  {
   "property": "C21",
   "status": "proved",
   "theorems": [
    "C21_checkerboard",
    "C21_opposite",
    "C21_start"
   ],
   "note": "Every size; the start of the loop holds exactly this state."
  },
  {
   "property": "C22",
   "status": "proved",
   "theorems": [
    "C22_hopping",
    "C22_hopping_symmetric",
    "C22_hole_onto_hole_refuted"
   ],
   "note": "Every lattice drawn in the plane, every set order; with two different site lists a hole may be exchanged with a hole (witness)."
  },
  {
   "property": "C23",
   "status": "proved",
   "theorems": [
    "C23_next_hopping"
   ],
   "note": "Every lattice on which straight paths are decided (rectangles, rings, clusters)."
  },
  {
   "property": "C24",
   "status": "proved",
   "theorems": [
    "C24_static_spin"
   ],
   "note": "Every lattice on which straight paths are decided; equality with a sum over bonds."
  },
  {
   "property": "C25",
   "status": "proved",
   "theorems": [
    "C25_spin_flip",
    "C25_same_class",
    "C25_clusters_refuted",
    "C25_peripheral_refuted"
   ],
   "note": "Row-major lattices proved; clusters and rings refuted with witnesses."
  },
  {
   "property": "C26",
   "status": "proved",
   "theorems": [
    "C26_singlet"
   ],
   "note": "Every lattice on which straight paths are decided."
  },
  {
   "property": "C27",
   "status": "proved",
   "theorems": [
    "C27_repulsion",
    "C27_energy",
    "C27_drawn",
    "C27_mixed_refuted"
   ],
   "note": "Rectangles, holes pairable in both directions; otherwise refuted (depends on set order)."
  },
  {
   "property": "C28",
   "status": "proved",
   "theorems": [
    "C28_assembly"
   ],
   "note": "Rectangles of every size, every site list used for both ends; never raises."
  },
  {
   "property": "C29",
   "status": "proved",
   "theorems": [
    "C29_elements"
   ],
   "note": "Every entry equals the independently written operator."
  },
  {
   "property": "C30",
   "status": "proved",
   "theorems": [
    "C30_symmetric"
   ],
   "note": ""
  },
  {
   "property": "C31",
   "status": "proved",
   "theorems": [
    "C31_rotations",
    "C31_half_turn"
   ],
   "note": "Four rotations on squares, half turn on every rectangle."
  },
  {
   "property": "C32",
   "status": "proved",
   "theorems": [
    "C32_spin_reversal"
   ],
   "note": "Entries equal after reindexing."
  },
  {
   "property": "C33",
   "status": "proved",
   "theorems": [
    "C33_row_sums"
   ],
   "note": "Every row sums to zero."
  },
  {
   "property": "C34",
   "status": "proved",
   "theorems": [
    "C34_order"
   ],
   "note": "Any two set orders and any two arguments."
  },
  {
   "property": "C35",
   "status": "proved",
   "theorems": [
    "C35_additive",
    "C35_all_off",
    "C35_linear"
   ],
   "note": "Additive over switches, zero with all off, linear in the couplings."
  },
  {
   "property": "C36",
   "status": "proved",
   "theorems": [
    "C36_conserved",
    "C36_unequal_switches_refuted"
   ],
   "note": "Row-major rectangles, equal Ising and flip switches; witness that unequal switches break it."
  },
  {
   "property": "C37",
   "status": "proved",
   "theorems": [
    "C37_squared",
    "C37_ladder_form",
    "C37_pair",
    "C37_every_vector",
    "C37_eight_sites",
    "C37_two_holes_refuted",
    "C37_wrong_index_refuted"
   ],
   "note": "At most one hole, or ascending sets (shown for the CPython order up to 8 sites); 9 sites with 2 holes refuted (IndexError), wrong index at 10 sites."
  },
  {
   "property": "C38",
   "status": "proved",
   "theorems": [
    "C38_value",
    "C38_zero",
    "C38_symmetric",
    "C38_bounds",
    "C38_polarised"
   ],
   "note": "Lower and upper bounds, symmetry, zero vector, polarised sectors."
  },
  {
   "property": "C39",
   "status": "proved",
   "theorems": [
    "C39_spin_z",
    "C39_two_sites",
    "C39_outside",
    "C39_all_pairs"
   ],
   "note": "Includes the ValueError for sites off the lattice."
  },
  {
   "property": "C40",
   "status": "proved",
   "theorems": [
    "C40_exact",
    "C40_rounded",
    "C40_nearest",
    "C40_halfway",
    "C40_failure",
    "C40_names",
    "C40_no_name",
    "C40_negative_root_refuted"
   ],
   "note": "np.roots is an oracle: exact roots, roots off by less than 1/4, ties, and a witness where a slightly negative root gives -1."
  },
  {
   "property": "C41",
   "status": "proved",
   "theorems": [
    "C41_dynamic",
    "C41_row",
    "C41_drawn",
    "C41_spin_flip_refuted"
   ],
   "note": "Keys and values for every filling, and on any drawing with two lists of sites when flips are off; equals the row of H when flips are off; with flips the value is doubled (witness)."
  },
  {
   "property": "C42",
   "status": "proved",
   "theorems": [
    "C42_weights",
    "C42_probabilities",
    "C42_reverse",
    "C42_reverse_all",
    "C42_other_spins",
    "C42_zero_vector"
   ],
   "note": "Exact weights, bounds, sums per site and over the lattice, spin reversal, errors. A zero vector (nan in numpy) is an error of the model."
  },
  {
   "property": "C43",
   "status": "proved",
   "theorems": [
    "C43_map",
    "C43_unit",
    "C43_not_periodic",
    "C43_refuted"
   ],
   "note": "Unit vectors proved; general formula with the norm divided out twice; witness where the map differs from the probabilities."
  },
  {
   "property": "C44",
   "status": "proved",
   "theorems": [
    "C44_distinct",
    "C44_ties_refuted",
    "C44_ties"
   ],
   "note": "Distinct magnitudes proved; witness with a tie where one determinant is returned twice, and the general form with ties."
  },
  {
   "property": "C45",
   "status": "proved",
   "theorems": [
    "C45_most_dominant",
    "C45_count"
   ],
   "note": "Every vector and every count, negative counts included."
  },
  {
   "property": "C46",
   "status": "proved",
   "theorems": [
    "C46_lowest"
   ],
   "note": "Every list of values with repetitions, every count."
  },
  {
   "property": "C47",
   "status": "proved",
   "theorems": [
    "C47_iteration",
    "C47_residual",
    "C47_true_residual",
    "C47_budget",
    "C47_no_iteration"
   ],
   "note": "One iteration described completely; residuals of a converged run; iteration budget. eigh, qr and norm are arbitrary functions, with the shape contract of qr."
  },
  {
   "property": "C48",
   "status": "proved",
   "theorems": [
    "C48_columns",
    "C48_bounded",
    "C48_never_wider",
    "C48_refuted"
   ],
   "note": "Exact number of columns; the documented limit is refuted by a run exceeding it for every numerics meeting the contracts."
  },
  {
   "property": "C49",
   "status": "proved",
   "theorems": [
    "C49_aligned",
    "C49_single",
    "C49_iteration",
    "C49_refuted"
   ],
   "note": "Aligned when at most one vector converges per iteration, always for one wanted value; witness with two simultaneous convergences. One iteration without convergence is given as an equation (C49_iteration)."
  },
  {
   "property": "C50",
   "status": "proved",
   "theorems": [
    "C50_kept",
    "C50_none",
    "C50_never_empty",
    "C50_eta_unused",
    "C50_refuted"
   ],
   "note": "Exact result under orthonormality; the whole basis when nothing is kept; never empty; eta has no effect; witness."
  },
  {
   "property": "C51",
   "status": "proved",
   "theorems": [
    "C51_true_value",
    "C51_refuted"
   ],
   "note": "Within tol of the spectrum for two wanted values or an orthonormal guess; witness for one value and a small guess."
  },
  {
   "property": "C52",
   "status": "proved",
   "theorems": [
    "C52_spelled",
    "C52_injective",
    "C52_switches",
    "C52_static_refuted",
    "C52_sizes_refuted"
   ],
   "note": "Injective up to ten sites; switches recovered at every size; witnesses of collisions at eleven sites and for the static switch."
  },
  {
   "property": "C53",
   "status": "proved",
   "theorems": [
    "C53_reload",
    "C53_written",
    "C53_saves",
    "C53_others",
    "C53_unknown",
    "C53_without_times",
    "C53_lattice_type",
    "C53_restored_refuted"
   ],
   "note": "Every stored field, the text written, other files untouched, errors without times; witness that the lattice type and the restriction are not restored."
  },
  {
   "property": "C54",
   "status": "proved",
   "theorems": [
    "C54_sweep",
    "C54_one_file_each",
    "C54_eleven_sites",
    "C54_eleven_refuted",
    "C54_lattice_type_refuted"
   ],
   "note": "Every lattice of at most ten sites, including sweeps that stop on an error; every eleven-site sweep without holes overwrites a sector (shown for all and by a witness)."
  },
  {
   "property": "C55",
   "status": "proved",
   "theorems": [
    "C55_lookup",
    "C55_any_saved",
    "C55_missing",
    "C55_wrong_run_refuted"
   ],
   "note": "Exact condition, lookup failure, and a witness where another run is found."
  },
  {
   "property": "C56",
   "status": "proved",
   "theorems": [
    "C56_dressing",
    "C56_turn",
    "C56_surroundings",
    "C56_thin_refuted"
   ],
   "note": "Sides at least 2, any field on the ring, any Hamiltonian of the right size; a witness one site wide where it fails."
  },
  {
   "property": "C57",
   "status": "proved",
   "theorems": [
    "C57_static",
    "C57_invariant",
    "C57_outside"
   ],
   "note": "Exact static dressing over the four turns; invariance of the whole dressing, dynamic part included (balanced spins when the neighbour is reversed)."
  },
  {
   "property": "C58",
   "status": "proved",
   "theorems": [
    "C58_neel",
    "C58_neel_never",
    "C58_settled",
    "C58_blocks",
    "C58_blocks_never"
   ],
   "note": "Exact description of both loops, for arbitrary numerical libraries; budgets of zero or less."
  },
  {
   "property": "C59",
   "status": "proved",
   "theorems": [
    "C59_bonds",
    "C59_exchange",
    "C59_holes",
    "C59_dropped",
    "C59_coupled",
    "C59_outside"
   ],
   "note": "Every restriction with the first list above the second; determinants without hole on the frontier get no dynamic element at all."
  },
  {
   "property": "C60",
   "status": "proved",
   "theorems": [
    "C60_shown",
    "C60_distinct"
   ],
   "note": "Character by character for every determinant; distinct basis elements have distinct displays."
  },
  {
   "property": "C61",
   "status": "proved",
   "theorems": [
    "C61_rectangle",
    "C61_point",
    "C61_neighbor",
    "C61_unsized"
   ],
   "note": "Whole picture, point by point; the picture of a neighbour; too few sites raise."
  },
  {
   "property": "C62",
   "status": "proved",
   "theorems": [
    "C62_basis",
    "C62_dominant",
    "C62_nothing"
   ],
   "note": "The property is the failure itself: AttributeError on every non-empty basis and for ndet >= 1; nothing to show otherwise."
  },
  {
   "property": "C63",
   "status": "proved",
   "theorems": [
    "C63_merged",
    "C63_values",
    "C63_total",
    "C63_drawn",
    "C63_lines"
   ],
   "note": "Every list of eigenvalues; distinct values with multiplicities; the drawn lines."
  },
  {
   "property": "C64",
   "status": "proved",
   "theorems": [
    "C64_curves",
    "C64_single",
    "C64_none",
    "C64_empty"
   ],
   "note": "Every vector and abscissa, with the place of each panel; one to three panels raise TypeError, none or fewer ValueError. np.arange is an oracle, square roots are exact."
  },
  {
   "property": "C65",
   "status": "proved",
   "theorems": [
    "C65_forgotten",
    "C65_others",
    "C65_never",
    "C65_raises",
    "C65_interpolation",
    "C65_plots"
   ],
   "note": "The property is the failure itself: the switch is lost for all arguments, the function never returns and raises AttributeError on complete data."
  },
  {
   "property": "C66",
   "status": "proved",
   "theorems": [
    "C66_orthonormal",
    "C66_narrow"
   ],
   "note": "Square and wide matrices of independent columns; IndexError for fewer columns than rows. The norm is any function vanishing only on zero."
  },
  {
   "property": "C67",
   "status": "proved",
   "theorems": [
    "C67_returned",
    "C67_rounded",
    "C67_rounding",
    "C67_decimals",
    "C67_endless"
   ],
   "note": "Residual of every returned pair, which exit rounds the value and which does not, rounding error, endless loop for every fuel."
  },
  {
   "property": "C68",
   "status": "proved",
   "theorems": [
    "C68_run",
    "C68_eigenpairs",
    "C68_sorted"
   ],
   "note": "Row-major rectangles. eigh, qr, norm, np.roots, the random guess and the clock are oracles."
  },
  {
   "property": "C69",
   "status": "proved",
   "theorems": [
    "C69_neighbor",
    "C69_dressing",
    "C69_symmetric",
    "C69_turn"
   ],
   "note": "Exact static dressing for one neighbour given a row by row numbering found by the isometry search; symmetry for every option."
  },
  {
   "property": "C70",
   "status": "proved",
   "theorems": [
    "C70_mirror",
    "C70_wave"
   ],
   "note": "Sides at least 2."
  },
  {
   "property": "C71",
   "status": "proved",
   "theorems": [
    "C71_spelled",
    "C71_apart",
    "C71_options",
    "C71_reverse_refuted",
    "C71_neel",
    "C71_neel_error",
    "C71_neel_missing",
    "C71_neel_complete",
    "C71_neel_works",
    "C71_blocks",
    "C71_blocks_error",
    "C71_blocks_missing",
    "C71_blocks_complete",
    "C71_blocks_works",
    "C71_chain",
    "C71_source"
   ],
   "note": "Names, reads, writes, errors and the chain run - ring - blocks, for every directory; reverse_spins and the threshold are not part of the name (witness). JSON text is modelled as its value."
  },
  {
   "property": "C72",
   "status": "proved",
   "theorems": [
    "C72_ring",
    "C72_site",
    "C72_point"
   ],
   "note": "Whole picture and the numbering of the ring."
  },
  {
   "property": "C73",
   "status": "proved",
   "theorems": [
    "C73_run_file",
    "C73_blocks_file",
    "C73_ring_refuted",
    "C73_spectrum",
    "C73_missing",
    "C73_sweep"
   ],
   "note": "Names, reads and the sweep of spectra; the Neel embedding alone is refuted by a witness."
  },
  {
   "property": "C74",
   "status": "proved",
   "theorems": [
    "C74_blank",
    "C74_fails",
    "C74_sizes",
    "C74_axes",
    "C74_linspace",
    "C74_axes_refuted"
   ],
   "note": "The property is the failure itself: blank maps or TypeError for all arguments; matplotlib with nb_v = nb_t + 1 is not modelled. The axis of t/J is refuted for every number of points; the points of np.linspace are stated."
  },
  {
   "property": "C75",
   "status": "proved",
   "theorems": [
    "C75_scaled",
    "C75_no_exchange",
    "C75_points",
    "C75_unsorted",
    "C75_gathered",
    "C75_too_many",
    "C75_reorganised",
    "C75_untangled",
    "C75_labels_refuted",
    "C75_drawn",
    "C75_undrawable",
    "C75_integer_spin"
   ],
   "note": "Every family of curves; the loop is pinned step by step by an inductive relation; the labels of a drawn curve may change along it (witness). C75_unsorted covers values stored in any order."
  },
  {
   "property": "C76",
   "status": "proved",
   "theorems": [
    "C76_bars",
    "C76_missing",
    "C76_run"
   ],
   "note": "Ties included; KeyError beyond the dimension."
  },
  {
   "property": "C77",
   "status": "proved",
   "theorems": [
    "C77_exchange",
    "C77_register",
    "C77_reversed",
    "C77_shape",
    "C77_restriction"
   ],
   "note": "Numbers and register for every exchange; the reversed case is refuted for every filling with different numbers."
  },
  {
   "property": "C78",
   "status": "proved",
   "theorems": [
    "C78_attribute",
    "C78_zero",
    "C78_number"
   ],
   "note": "The property is the failure itself, for every basis and vectors."
  },
  {
   "property": "C79",
   "status": "proved",
   "theorems": [
    "C79_projection",
    "C79_spectrum",
    "C79_too_many"
   ],
   "note": "The hypotheses on lin.qr are on the factor of the given matrix only: orthonormal columns, each vector a combination of the first columns."
  },
  {
   "property": "C80",
   "status": "proved",
   "theorems": [
    "C80_charge",
    "C80_absent",
    "C80_pictures",
    "C80_total"
   ],
   "note": "Normalised vectors; interp2d is an oracle that only has to return."
  },
  {
   "property": "C81",
   "status": "proved",
   "theorems": [
    "C81_lowered",
    "C81_injective",
    "C81_energies",
    "C81_levels",
    "C81_converse_refuted"
   ],
   "note": "Both exchange switches equal; the converse (energies of a smaller projection in a larger one) is refuted on two sites."
  },
  {
   "property": "C82",
   "status": "proved",
   "theorems": [
    "C82_columns",
    "C82_orthonormal",
    "C82_too_many",
    "C82_order_refuted",
    "C82_main"
   ],
   "note": "The statements on the two lattices of main.py are on their concrete lists; the rest is for all lists."
  },
  {
   "property": "C83",
   "status": "proved",
   "theorems": [
    "C83_earlier",
    "C83_missing",
    "C83_script",
    "C83_file",
    "C83_run"
   ],
   "note": "A successful run on the eighteen sites is proved to exist (C83_run); its linear algebra is a made-up oracle."
  },
  {
   "property": "C84",
   "status": "proved",
   "theorems": [
    "C84_K",
    "C84_L",
    "C84_small"
   ],
   "note": "Nothing in the program calls these two functions."
  },
  {
   "property": "C85",
   "status": "proved",
   "theorems": [
    "C85_dressing",
    "C85_once_refuted"
   ],
   "note": "Hypotheses: the denominators are not zero; a reversed neighbour needs as many ups as downs (C77 shows what happens otherwise). That each intermediate state counts once is refuted on two sites beside two sites."
  },
  {
   "property": "C86",
   "status": "proved",
   "theorems": [
    "C86_dressing"
   ],
   "note": "Square blocks; hypotheses as for C85."
  },
  {
   "property": "C87",
   "status": "proved",
   "theorems": [
    "C87_monotone",
    "C87_bounds"
   ],
   "note": "The accuracy of eigh and the spans of qr are hypotheses on the run, met exactly by the example."
  },
  {
   "property": "C88",
   "status": "proved",
   "theorems": [
    "C88_elements",
    "C88_energies"
   ],
   "note": "Row-major lattices, any restriction of sites."
  },
  {
   "property": "C89",
   "status": "proved",
   "theorems": [
    "C89_elements",
    "C89_mean"
   ],
   "note": "J >= 0; with holes the three moves must be off."
  },
  {
   "property": "C90",
   "status": "proved",
   "theorems": [
    "C90_unique"
   ],
   "note": "That e is the lowest energy is a hypothesis (over the rationals it may not exist); the example proves it for four sites."
  },
  {
   "property": "C91",
   "status": "proved",
   "theorems": [
    "C91_spin"
   ],
   "note": "That e is the lowest energy is a hypothesis, proved in the example for four sites."
  },
  {
   "property": "C92",
   "status": "proved",
   "theorems": [
    "C92_order"
   ],
   "note": "The lowest energy of the second filling is a hypothesis, as in C91."
  },
  {
   "property": "C93",
   "status": "proved",
   "theorems": [
    "C93_reversed"
   ],
   "note": "As C91."
  },
  {
   "property": "C94",
   "status": "proved",
   "theorems": [
    "C94_certificate",
    "C94_characterised"
   ],
   "note": "The converse needs no holes and J > 0, as C90."
  },
  {
   "property": "C95",
   "status": "proved",
   "theorems": [
    "C95_elements",
    "C95_lowest",
    "C95_sectors",
    "C95_frustrated_refuted"
   ],
   "note": "A state with the signs is a hypothesis (over the rationals it may not exist); the example has one hole and three spins. C95_frustrated_refuted: with J > 0 part (b) fails."
  },
  {
   "property": "C96",
   "status": "proved",
   "theorems": [
    "C96_unique",
    "C96_spin"
   ],
   "note": "That e is the lowest energy is a hypothesis, proved in the example for one hole and three spins; compute_S2 with several holes needs sets listed in order, as C37."
  },
  {
   "property": "C97",
   "status": "proved",
   "theorems": [
    "C97_elements",
    "C97_states",
    "C97_mirrors",
    "C97_parity",
    "C97_parity_holes"
   ],
   "note": "That e is the lowest energy is a hypothesis of the two statements on parities, proved in the examples."
  },
  {
   "property": "C98",
   "status": "proved",
   "theorems": [
    "C98_range",
    "C98_top",
    "C98_neel"
   ],
   "note": "The bounds need both parts of the exchanges; that e is the lowest energy is a hypothesis of C98_neel."
  },
  {
   "property": "C99",
   "status": "proved",
   "theorems": [
    "C99_levels",
    "C99_monotone"
   ],
   "note": "That eigh and qr are accurate is a hypothesis (well_diagonalised), met in the example with eps = 0."
  },
  {
   "property": "C100",
   "status": "proved",
   "theorems": [
    "C100_range",
    "C100_tj"
   ],
   "note": "Bound of every mean value and every energy, for all switches and couplings, and the signed bounds of hops and exchanges."
  },
  {
   "property": "C101",
   "status": "proved",
   "theorems": [
    "C101_trace",
    "C101_levels",
    "C101_energies"
   ],
   "note": "Trace for all sizes, and sum of the energies of every complete set of orthogonal eigenvectors."
  },
  {
   "property": "C102",
   "status": "proved",
   "theorems": [
    "C102_shift",
    "C102_couplings",
    "C102_concave",
    "C102_repulsions",
    "C102_exchanges",
    "C102_lowest"
   ],
   "note": "Rank by rank over complete sets of orthogonal eigenvectors; that such sets exist is a hypothesis (over the rationals they may not), the bounds on mean values and on the lowest energy need none."
  },
  {
   "property": "C103",
   "status": "proved",
   "theorems": [
    "C103_assembly",
    "C103_numbers",
    "C103_elements",
    "C103_figures",
    "C103_energies",
    "C103_row_sums",
    "C103_spin",
    "C103_rectangle",
    "C103_ring",
    "C103_clusters",
    "C103_transposed",
    "C103_clusters_refuted",
    "C103_ring_refuted",
    "C103_run",
    "C103_eigenpairs"
   ],
   "note": "Row sums of the exchange with hole-dependent exchanges are refuted on both other lattices (C103_clusters_refuted, C103_ring_refuted). That the numbering of the clusters is found is a hypothesis, met in the example."
  },
  {
   "property": "C104",
   "status": "proved",
   "theorems": [
    "C104_states",
    "C104_rational",
    "C104_ground",
    "C104_sum"
   ],
   "note": "Over the real numbers of the standard library; existence and uniqueness of the spectrum are proved, not assumed."
  },
  {
   "property": "C105",
   "status": "proved",
   "theorems": [
    "C105_range",
    "C105_exchanges",
    "C105_tj",
    "C105_neel",
    "C105_couplings",
    "C105_concave",
    "C105_repulsions",
    "C105_stronger"
   ],
   "note": "The statements of C98, C100 and C102 for real energies, without assuming a rational spectrum."
  },
  {
   "property": "C106",
   "status": "proved",
   "theorems": [
    "C106_signs",
    "C106_ferro"
   ],
   "note": "Existence, uniqueness and signs of the ground state, without assuming a rational one (C90, C94 and C96 do)."
  },
  {
   "property": "C107",
   "status": "proved",
   "theorems": [
    "C107_near",
    "C107_unit",
    "C107_ritz",
    "C107_levels"
   ],
   "note": "The contracts of eigh, qr and norm are hypotheses, met in the example; no rational spectrum is assumed."
  },
  {
   "property": "C108",
   "status": "proved",
   "theorems": [
    "C108_matrix",
    "C108_spin"
   ],
   "note": "compute_S2 is a model function on rational vectors; its matrix is read off the unit vectors."
  },
  {
   "property": "C109",
   "status": "proved",
   "theorems": [
    "C109_mean",
    "C109_levels",
    "C109_ranks",
    "C109_order",
    "C109_ferro",
    "C109_full_spin"
   ],
   "note": "The statements of C38, C81, C92, C95 and C96 for real energies; ranks are compared, no rational spectrum is assumed."
  },
  {
   "property": "C110",
   "status": "proved",
   "theorems": [
    "C110_figures",
    "C110_hops",
    "C110_reversal",
    "C110_parity",
    "C110_parity_holes",
    "C110_reversed_parity"
   ],
   "note": "The statements of C88, C93, C97 and C103 for complete real spectra and for the exact ground state."
  },
  {
   "property": "C111",
   "status": "proved",
   "theorems": [
    "C111_nearest",
    "C111_binary",
    "C111_works",
    "C111_elements",
    "C111_rows",
    "C111_means",
    "C111_symmetric",
    "C111_energy",
    "C111_exact",
    "C111_energies",
    "C111_triangle",
    "C111_levels",
    "C111_davidson",
    "C111_ranks"
   ],
   "note": "Rounded operations are those of the assembly (interactions.py, hamiltonianConstruction.py); exponents are unbounded, and the operations inside the Davidson iterations are exact, up to the contracts of eigh, qr and norm."
  },
  {
   "property": "C112",
   "status": "proved",
   "theorems": [
    "C112_elements",
    "C112_mean",
    "C112_value",
    "C112_spin",
    "C112_exact",
    "C112_failures",
    "C112_singlet_refuted"
   ],
   "note": "The factor of compute_S2, the doubling and the halving are exact in floats and not rounded. That a singlet always gets spin 0 is false (C112_singlet_refuted)."
  },
  {
   "property": "C113",
   "status": "proved",
   "theorems": [
    "C113_weights",
    "C113_probabilities",
    "C113_rectangle",
    "C113_exact",
    "C113_failures",
    "C113_zero_vector",
    "C113_total_refuted"
   ],
   "note": "The product with the truth value of the comparison is exact and not rounded. A sum of the three probabilities above 1 is possible (C113_total_refuted)."
  },
  {
   "property": "C114",
   "status": "proved",
   "theorems": [
    "C114_symmetric",
    "C114_lower",
    "C114_order",
    "C114_half_turn_refuted",
    "C114_set_order_refuted"
   ],
   "note": "The rounding is any function of the exact result; the order in which scipy adds duplicates is a permutation depending on the list of terms only. The diagonal depends on the order of the sets (C114_set_order_refuted)."
  },
  {
   "property": "C115",
   "status": "proved",
   "theorems": [
    "C115_motions",
    "C115_rotations",
    "C115_half_turn",
    "C115_spin_reversal",
    "C115_energy"
   ],
   "note": "The rounding is any function of the exact result. Motions: elements off the diagonal (on the diagonal the claim is false, C114_half_turn_refuted). Spin reversal: all elements."
  },
  {
   "property": "C116",
   "status": "proved",
   "theorems": [
    "C116_motions",
    "C116_rotations",
    "C116_half_turn",
    "C116_orders",
    "C116_test"
   ],
   "note": "assertAlmostEqual is modelled as: the floats are equal, or the rounded difference is nearest to zero at the given number of decimals. The example runs the theorem on the data of the test."
  },
  {
   "property": "C117",
   "status": "proved",
   "theorems": [
    "C117_representable",
    "C117_exact",
    "C117_binary",
    "C117_orders",
    "C117_rotations"
   ],
   "note": "C117_exact holds for any rounding that keeps the multiples of the grid below the bound; C117_representable shows this for floats of p bits with unbounded exponents."
  },
  {
   "property": "C118",
   "status": "proved",
   "theorems": [
    "C118_binary",
    "C118_orders",
    "C118_motions",
    "C118_rotations",
    "C118_half_turn"
   ],
   "note": "For elements off the diagonal this is C114 and C115; new is the diagonal. C118_binary shows that rounding to p bits meets the hypothesis."
  },
  {
   "property": "C119",
   "status": "proved",
   "theorems": [
    "C119_nearest",
    "C119_binary",
    "C119_scaled",
    "C119_units",
    "C119_signs",
    "C119_triple_refuted"
   ],
   "note": "C119_scaled holds for any rounding that commutes with the factor; C119_binary shows this for floats of p bits with unbounded exponents. C119_triple_refuted: the factor 3."
  },
  {
   "property": "C120",
   "status": "proved",
   "theorems": [
    "C120_binary",
    "C120_static",
    "C120_repulsion",
    "C120_diagonal",
    "C120_attractive",
    "C120_repulsive"
   ],
   "note": "Off the diagonal the elements are not monotone in the couplings (the singlet terms have both signs); no claim is made there."
  },
  {
   "property": "C121",
   "status": "proved",
   "theorems": [
    "C121_spin_operator",
    "C121_spin",
    "C121_probabilities",
    "C121_binary"
   ],
   "note": "The norm of the library is any function that scales with the vector. The map of a rectangular lattice, which divides twice by the squared norm (C43), is not included."
  }
 ]
}