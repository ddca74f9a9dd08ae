# Formal model of tJHam

The Python code in /repo is modelled in Coq 8.16.1, under `rocq/theories`. The code was read as text, never run.
`properties.jsonl` lists the properties, `MANIFEST.json` maps each one to its theorems,
`seeded/LOG.jsonl` records deliberate mistakes put in a scratch copy of the model and the theorems that rejected them.

Build: `cd rocq && coq_makefile -f _CoqProject -o Makefile && make -j4`.

## Layout

| files | content |
|---|---|
| `PyBase.v` | Python and numpy primitives: exceptions as values, lists, slices, sorting, sets, `comb`, `combinations`, matrices |
| `Lattice.v` | model of latticeFunctions.py |
| `Base.v`, `Prob.v`, `Display.v` | model of baseConstruction.py: basis, ranking, geometry; probabilities; displays |
| `Interact.v`, `Spin.v` | model of interactions.py: interactions; spin operators |
| `Ham.v` | model of hamiltonianConstruction.py |
| `Round.v`, `RoundSpin.v`, `RoundProb.v` | the float operations of interactions.py and hamiltonianConstruction.py, and of the probabilities of baseConstruction.py, rounded |
| `Dav.v` | model of davidson.py |
| `Files.v` | model of initialComputations.py |
| `Emb.v` | model of embedding.py |
| `Post.v`, `Phase.v` | model of postProcessing.py |
| `Spec.v`, `SpecQ.v`, `SpecOps.v`, `SpecTJ.v`, `SpecSpin.v`, `DisplayDefs.v`, `PostDefs.v` | specifications that mention nothing of the model: occupations of sites, geometry of the plane, the t-J operator, ladder operators, pictures |
| `Geometry.v`, `HamSpec.v`, `SpinDefs.v`, `ProbDefs.v`, `DavDefs.v`, `VarDefs.v`, `LevelDefs.v`, `SignDefs.v`, `MotionDefs.v`, `EnergyDefs.v`, `RangeDefs.v`, `TraceDefs.v`, `ShiftDefs.v`, `DrawnDefs.v`, `RealSum.v`, `RealDefs.v`, `RoundDefs.v`, `TestDefs.v`, `GridDefs.v`, `OneDefs.v`, `ScaleDefs.v`, `MonoDefs.v`, `SymDefs.v`, `FilesDefs.v`, `EmbDefs.v`, `DynDefs.v`, `PlotDefs.v`, `PhaseDefs.v`, `MainDefs.v` | vocabulary of the statements that names records of the model (a configuration, a file) |
| `PyFacts.v`, `P*.v`, `F*.v` | lemmas and proofs; the final lemmas end in `_pf` |
| `Runtimes.v`, `Examples.v` | concrete set orders (ascending, descending, CPython's table), concrete lattices |
| `RepoTests.v` | the tests of the repository, with their data, evaluated on the model (tests, not proofs). All agree except `test_spin_number`, which expects multiplicities where the code returns spins |
| `Thm_*.v` | the theorems, each closed by `exact`, its `Print Assumptions`, and an example meeting its hypotheses |

Every definition of the model carries a comment with the file and the lines it follows.

## Modelling choices

* A Python `int` is a `Z`. Indexing and slicing follow Python's rules, negative indices included.
* An exception is a value: a function that can raise returns `res A := Ok a | Err e`. A theorem `f x = Ok ...` thus states that the code does not raise.
  `LinAlgError` is merged with `ValueError`, `UnboundLocalError` with `NameError`.
* Floats (couplings, vectors, matrices, energies) are exact rationals `Qc`. `Round.v` repeats the assembly of the Hamiltonian with every operation rounded, and C111 bounds the difference; `RoundSpin.v` does the same for the spin operators (C112) and `RoundProb.v` for the probabilities (C113). Rounding inside the linear algebra, overflow, underflow, infinities and NaN are not modelled.
  A division by zero, which gives nan or inf in numpy, is `Err ZeroDivisionError`. Magnetic numbers of sites are doubled (0, -1, 1).
* `list(set)` of integers comes in an order fixed by the interpreter. The order is a parameter `set_iter` (record `runtime`),
  constrained by `set_iter_ok` to list each element exactly once. Positive theorems hold for every such order; refutations use CPython's table layout (`Runtimes.v`).
* Oracles, universally quantified: `transfer` (the isometry search by eigenvectors in `is_bond_linear`), `eigh`, `qr`, `norm` (record `numerics`), `np.roots`,
  random guesses, the clock, `interp2d` and `np.arange` (record `plotting`). A theorem that needs a property of one of them says so as a hypothesis
  (for instance `qr_shape`: as many columns of the same height; the examples give a concrete instance).
* Sparse matrices are lists of (value, row, column); duplicates add up, as in scipy.
* A bond matrix is a number of rows, a number of columns and an entry function.
* While loops have fuel; running out of it is the distinct error `OutOfFuel`, shown not to happen (or, for `davidson_algorithm` on a non converging input, shown to happen for every fuel).
* Files: a directory is a list of (name, content); sub-directories exist and are prefixes of names. The content is the JSON value, or nothing when the file was opened and writing failed;
  `json.loads(json.dumps(x)) = x` for the values written. Numbers in file names are written in decimal (`str_of_int`).
* What is drawn by matplotlib is a value (`drawing`); the directories of the pictures exist; floating point square roots of integers are exact.
* Behaviour of the libraries read from their documentation: `pcolormesh` raises TypeError unless the axes have the sizes of the map (old versions also accept one more abscissa, not modelled);
  `numpy.linalg.qr` of a number raises LinAlgError; `range` of a float raises TypeError.
* tqdm, prints, timings and deep copies have no effect on results and are dropped; aliasing that matters (`data.configuration`, `initial_guess`) is threaded explicitly.

## Trusted base

* The Coq kernel (and its virtual machine, used by `vm_compute` in examples and witnesses; `coqchk` replays them without it).
* `Print Assumptions` stands under every theorem of `Thm_*.v`. Each theorem of C01-C103 and of `Thm_Round.v` (C111), `Thm_RoundSpin.v` (C112), `Thm_RoundProb.v` (C113), `Thm_RoundSym.v` (C114), `Thm_RoundMove.v` (C115), `Thm_RoundTest.v` (C116), `Thm_Grid.v` (C117), `Thm_One.v` (C118), `Thm_Scale.v` (C119), `Thm_Mono.v` (C120) and `Thm_Vec.v` (C121) answers `Closed under the global context`: no axiom at all is used.
  The theorems of C104-C110 (`Thm_Real.v`, `Thm_RealSym.v`) and those of C111 about energies (`Thm_RoundReal.v`) speak of real numbers and use the axioms by which the standard library defines them:
  all of them `ClassicalDedekindReals.sig_forall_dec` and `FunctionalExtensionality.functional_extensionality_dep`;
  `C104_states`, `C104_ground`, `C105_neel`, `C105_concave`, `C106_signs`, `C106_ferro`, `C107_near`, `C107_unit`, `C108_spin`, `C109_order`, `C109_ferro`, `C109_full_spin`, `C110_parity`, `C110_parity_holes`, `C110_reversed_parity`, `C111_triangle` also `ClassicalDedekindReals.sig_not_dec`. No other axiom is used.
  (A listing of the whole library context by `coqchk -o` also shows `Classical_Prop.classic`, the constants sealed in `Coq.Reals.Rdefinitions` by which the standard library builds its real numbers, and seven constants of `Coq.ssr.ssrunder`, an opaque module of the standard library loaded by tactics; no theorem depends on `classic` or on those seven.)
* The hand translation of the Python text into the model, definition by definition.
* The specifications and the vocabulary files listed above.
* The assumptions on the interpreter and on the libraries listed under modelling choices.

## What is modelled and what is not

Modelled: all of latticeFunctions.py (`compute_ms` doubled: a division by two is left out);
all of baseConstruction.py up to line 951 (the rest is commented-out tests) except `__to_json__` and `get_id`, folded into the file model;
all of interactions.py up to line 740; hamiltonianConstruction.py; davidson.py;
initialComputations.py; embedding.py; postProcessing.py; the statements of main.py that are not commented out, with what lines 534-537 print.
Not modelled: other prints and progress bars, the inside of numpy, scipy and matplotlib.

## Properties

For each property: the functions, what is modelled and how it is proved, the theorems, and the status.
A property found false is stated with a `_refuted` theorem giving a concrete witness, next to the strongest true version.


### C01 Basis enumerates every occupation exactly once (proved)

* Code: `baseConstruction.py:construct_basis`.
* How: `construct_basis` (Base.v). Determinants are related to occupation functions by `describes`; enumeration by induction on `combinations`.
* Theorems: `C01_basis_enumerates`.
* Enumeration is complete, duplicate free and contains nothing else.

### C02 Basis size equals nb_conf; impossible fillings are empty or rejected (proved)

* Code: `baseConstruction.py:construct_basis`, `latticeFunctions.py:compute_dimension`, `baseConstruction.py:Configuration.__init__`.
* How: `compute_dimension`, `make_configuration`. Length of the enumeration by induction; `comb` tied to factorials.
* Theorems: `C02_comb_factorial`, `C02_basis_size`.
* Size, error cases and empty fillings; binomials tied to factorials.

### C03 get_index_in_basis inverts the enumeration, whatever the order inside each group (proved)

* Code: `baseConstruction.py:get_index_in_basis`, `baseConstruction.py:compute_hash_table`, `baseConstruction.py:get_distance_hash`, `baseConstruction.py:project_hash`, `baseConstruction.py:reorder_basis_element`.
* How: Ranking functions of baseConstruction.py 819-951. Lexicographic rank formula proved by induction on the subset, independent of the order inside the groups after sorting.
* Theorems: `C03_index_inverts`.
* For every listing of the same occupation.

### C04 get_hash_basis(i) is the i-th basis element (proved)

* Code: `baseConstruction.py:get_hash_basis`, `baseConstruction.py:get_target_hash`, `baseConstruction.py:fusion_hash`.
* How: `get_hash_basis`, `get_target_hash`, `fusion_hash`. Successor lemma for the unranking loop, fuel bounded by the number of subsets.
* Theorems: `C04_hash_basis`, `C04_hash_basis_past_end`.
* Termination is part of the statement (fuel never runs out).

### C05 Out-of-range ranks are detected (proved)

* Code: `baseConstruction.py:get_target_hash`.
* How: Same unranking loop, started with a rank past the end.
* Theorems: `C05_target_hash`.
* Fuel never runs out.

### C06 Index is a bijection and is monotone for the lexicographic order (proved)

* Code: `baseConstruction.py:get_index_in_basis`, `baseConstruction.py:compute_hash_table`.
* How: Consequences of C03 and C04 plus the lexicographic order of `combinations`.
* Theorems: `C06_index_bijective_monotone`.
* Bijection and lexicographic monotonicity.

### C07 Reordering is canonical and physics-preserving (proved)

* Code: `baseConstruction.py:reorder_basis_element`.
* How: `reorder_basis_element`: sorted groups, same occupation, unique canonical form.
* Theorems: `C07_reorder`.
* Stated in full.

### C08 Site lookup and group lookup agree (proved)

* Code: `baseConstruction.py:get_indexes_of`, `baseConstruction.py:get_spin_site`.
* How: `get_indexes_of`, `get_spin_site`; sets handled through `set_iter_ok`.
* Theorems: `C08_lookup`, `C08_groups_partition`, `C08_bad_spin`.
* For every set order and every pair of restrictions.

### C09 Spin reversal of determinants and bases (proved)

* Code: `baseConstruction.py:reverse_spins`, `baseConstruction.py:reverse_spins_basis`.
* How: `reverse_spins`, `reverse_spins_basis` as the exchange of spins on occupations.
* Theorems: `C09_reverse_spins`, `C09_reverse_spins_basis`, `C09_restricted_refuted`.
* Unrestricted case proved; restricted case refuted with a 2x2 witness.

### C10 Spin reversal of vectors is a norm-preserving involution (proved)

* Code: `baseConstruction.py:reverse_spins_vect`.
* How: `reverse_spins_vect` as a scatter along the bijection of C09; involution and norm by permutation of sums.
* Theorems: `C10_reverse_vect`, `C10_norm`.
* For vectors over any type; sum of squares over rationals.

### C11 Joining two blocks keeps each block's occupation (proved)

* Code: `baseConstruction.py:extend_determinant`, `embedding.py:embedding_blocks`.
* How: `extend_determinant` on pairs of occupations.
* Theorems: `C11_extend`.
* Stated in full.

### C12 Rotations act as the cyclic group on square lattices (proved)

* Code: `baseConstruction.py:rotate_determinant`.
* How: `rotate_determinant` as a permutation of sites; group laws from the plane rotation.
* Theorems: `C12_rotation_square`, `C12_rotation_group`, `C12_half_turn`, `C12_non_square_refuted`.
* Squares and half turns proved; odd rotations of a 2x1 rectangle refuted.

### C13 Rectangular bond matrix is grid adjacency (proved)

* Code: `latticeFunctions.py:build_rectangular_bond_matrix`, `latticeFunctions.py:build_J_matrix`.
* How: `build_rectangular_bond_matrix`: entry function equal to unit distance in the plane, by induction on the block loop.
* Theorems: `C13_rectangular`.
* All sizes.

### C14 Outer-ring bond matrix is planar adjacency (proved)

* Code: `latticeFunctions.py:build_bond_matrix_neel_embedding`, `latticeFunctions.py:build_bond_matrix_neel_outer_lattice`, `latticeFunctions.py:build_T_matrix`.
* How: Ring builders: explicit coordinates of the ring sites, entry by entry.
* Theorems: `C14_ring`.
* All sizes, ring alone and ring with block.

### C15 Two-block bond matrix is adjacency of the juxtaposed lattice (proved)

* Code: `latticeFunctions.py:build_bond_matrix_block_embedding`, `latticeFunctions.py:build_U_matrix`.
* How: Two juxtaposed blocks: explicit coordinates, entry by entry.
* Theorems: `C15_blocks`.
* All sizes.

### C16 Neighbour and bond queries are exact (proved)

* Code: `latticeFunctions.py:get_neighbors`, `latticeFunctions.py:build_bond_list`.
* How: `get_neighbors`, `build_bond_list`: characterised by membership, for all restrictions.
* Theorems: `C16_neighbors`, `C16_neighbors_nested`, `C16_bond_list`, `C16_bond_list_default`.
* For every set order; error cases included.

### C17 Second-neighbour queries are exact (proved)

* Code: `latticeFunctions.py:get_second_neighbors`, `latticeFunctions.py:get_diagonal_second_neighbors`.
* How: Second neighbours: characterised by distances in the plane.
* Theorems: `C17_second_neighbors`, `C17_diagonal_neighbors`.
* All rectangles.

### C18 Colinearity on row-major lattices (proved)

* Code: `baseConstruction.py:is_bond_linear`.
* How: `is_bond_linear`, Periodic branch: arithmetic on row-major numbers against colinearity in the plane.
* Theorems: `C18_straight`, `C18_errors`.
* All rectangles; error cases included.

### C19 Colinearity on the ring-embedded lattice (proved)

* Code: `baseConstruction.py:is_bond_linear`.
* How: Same function, ring branch: case analysis on the sides of the ring.
* Theorems: `C19_ring_straight`, `C19_thin_refuted`.
* Both sides at least 2; thinner blocks refuted.

### C20 Colinearity on cluster lattices, given a transfer matrix (proved)

* Code: `baseConstruction.py:is_bond_linear`.
* How: Same function, Clusters branch, for every permutation that the oracle returns and that maps the bonds of the row-major lattice; two such permutations give the same answer. Without an acceptable candidate, the last one is used.
* Theorems: `C20_clusters_straight`, `C20_graph_determined`, `C20_not_found`.
* For every relabelling found by the search; the eigenvector search itself is an oracle. Without one, the last candidate is used and may raise IndexError.

### C21 The initial surrounding wave is a Neel checkerboard (proved)

* Code: `embedding.py:embedding_neel`.
* How: The initial wave of `embedding_neel`: colouring of the plane.
* Theorems: `C21_checkerboard`, `C21_opposite`, `C21_start`.
* Every size; the start of the loop holds exactly this state.

### C22 Hopping produces exactly the one-hole moves (proved)

* Code: `interactions.py:compute_hopping_integral`.
* How: `compute_hopping_integral` up to permutation equal to the moves of `SpecOps.v`.
* Theorems: `C22_hopping`, `C22_hopping_symmetric`, `C22_hole_onto_hole_refuted`.
* Every lattice drawn in the plane, every set order; with two different site lists a hole may be exchanged with a hole (witness).

### C23 Next-neighbour hopping produces each two-step move once, correctly classified (proved)

* Code: `interactions.py:compute_next_hopping_integral`.
* How: `compute_next_hopping_integral`: two-step moves, each once, straight or bent (C18-C20).
* Theorems: `C23_next_hopping`.
* Every lattice on which straight paths are decided (rectangles, rings, clusters).

### C24 Static spin energy formula (proved)

* Code: `interactions.py:compute_static_spin_interaction`.
* How: `compute_static_spin_interaction` equal to a sum over bonds of the specification.
* Theorems: `C24_static_spin`.
* Every lattice on which straight paths are decided; equality with a sum over bonds.

### C25 Spin-flip images and their coupling class match the static term (proved)

* Code: `interactions.py:compute_spin_flip`, `interactions.py:compute_static_spin_interaction`.
* How: `compute_spin_flip`: images and class; the class compared with C24.
* Theorems: `C25_spin_flip`, `C25_same_class`, `C25_clusters_refuted`, `C25_peripheral_refuted`.
* Row-major lattices proved; clusters and rings refuted with witnesses.

### C26 Singlet displacement images (proved)

* Code: `interactions.py:compute_singlet_displacement`.
* How: `compute_singlet_displacement` against the specification moves.
* Theorems: `C26_singlet`.
* Every lattice on which straight paths are decided.

### C27 Hole repulsion counts unordered pairs once (proved)

* Code: `interactions.py:compute_hole_repulsion`.
* How: `compute_hole_repulsion` as a count over unordered pairs.
* Theorems: `C27_repulsion`, `C27_energy`, `C27_drawn`, `C27_mixed_refuted`.
* Rectangles, holes pairable in both directions; otherwise refuted (depends on set order).

### C28 Hamiltonian assembly stays inside the sector (proved)

* Code: `hamiltonianConstruction.py:build_hamiltonian`, `hamiltonianConstruction.py:add_ham_coo`, `interactions.py:add_hopping_integral`, `interactions.py:add_next_hopping_integral`, `interactions.py:add_static_spin_interaction`, `interactions.py:add_spin_flip`, `interactions.py:add_singlet_displacement`, `interactions.py:add_hole_repulsion`.
* How: `build_hamiltonian` and the `add_*` functions: invariant of the accumulator over the basis loop.
* Theorems: `C28_assembly`.
* Rectangles of every size, every site list used for both ends; never raises.

### C29 Hamiltonian matrix elements equal the t-J operator (proved)

* Code: `hamiltonianConstruction.py:build_hamiltonian`.
* How: Each entry as a sum of images (C22-C27) equal to `tj_element` of `SpecTJ.v`.
* Theorems: `C29_elements`.
* Every entry equals the independently written operator.

### C30 Hamiltonian is symmetric (proved)

* Code: `hamiltonianConstruction.py:build_hamiltonian`, `davidson.py:modified_davidson_algorithm`.
* How: Symmetry of `tj_element`.
* Theorems: `C30_symmetric`.
* Stated in full.

### C31 Hamiltonian respects lattice symmetries (proved)

* Code: `hamiltonianConstruction.py:build_hamiltonian`, `baseConstruction.py:rotate_determinant`.
* How: Invariance of `tj_element` under the rotations of the plane, through C29 and C12.
* Theorems: `C31_rotations`, `C31_half_turn`.
* Four rotations on squares, half turn on every rectangle.

### C32 Hamiltonian is invariant under global spin reversal (proved)

* Code: `hamiltonianConstruction.py:build_hamiltonian`, `baseConstruction.py:reverse_spins`, `initialComputations.py:perform_configurations_computations`.
* How: Invariance of `tj_element` under spin exchange, through C29 and C09.
* Theorems: `C32_spin_reversal`.
* Entries equal after reindexing.

### C33 Spin part annihilates the uniform state (proved)

* Code: `interactions.py:add_static_spin_interaction`, `interactions.py:add_spin_flip`.
* How: Row sums of the spin part of `tj_element`.
* Theorems: `C33_row_sums`.
* Every row sums to zero.

### C34 Result independent of set order and of the unused restriction argument (proved)

* Code: `hamiltonianConstruction.py:build_hamiltonian`.
* How: The right-hand side of C29 mentions neither the order nor the argument.
* Theorems: `C34_order`.
* Any two set orders and any two arguments.

### C35 Hamiltonian is additive over switches and linear in couplings (proved)

* Code: `hamiltonianConstruction.py:build_hamiltonian`.
* How: Linearity of `tj_element`.
* Theorems: `C35_additive`, `C35_all_off`, `C35_linear`.
* Additive over switches, zero with all off, linear in the couplings.

### C36 Total spin is conserved (proved)

* Code: `hamiltonianConstruction.py:build_hamiltonian`, `interactions.py:compute_S2`.
* How: Commutation of the t-J operator with the ladder operators on wave functions (`SpecSpin.v`), transported to vectors by C29 and C37.
* Theorems: `C36_conserved`, `C36_unequal_switches_refuted`.
* Row-major rectangles, equal Ising and flip switches; witness that unequal switches break it.

### C37 compute_S2 is the S^2 operator (proved)

* Code: `interactions.py:compute_S2`, `interactions.py:compute_S_plus_S_minus`, `interactions.py:compute_S_plus_S_minus_det`.
* How: `compute_S2` equal to the ladder form of S^2 on wave functions.
* Theorems: `C37_squared`, `C37_ladder_form`, `C37_pair`, `C37_every_vector`, `C37_eight_sites`, `C37_two_holes_refuted`, `C37_wrong_index_refuted`.
* At most one hole, or ascending sets (shown for the CPython order up to 8 sites); 9 sites with 2 holes refuted (IndexError), wrong index at 10 sites.

### C38 S^2 expectation values are bounded below and exact on polarised states (proved)

* Code: `interactions.py:compute_S2_exp_val`.
* How: Expectation values: sums of squares of ladder images, exact spectrum bounds.
* Theorems: `C38_value`, `C38_zero`, `C38_symmetric`, `C38_bounds`, `C38_polarised`.
* Lower and upper bounds, symmetry, zero vector, polarised sectors.

### C39 Sz operators (proved)

* Code: `interactions.py:compute_spin_z`, `interactions.py:compute_spins_z_two_bodies`, `interactions.py:compute_spins_z_two_bodies_det`.
* How: `compute_spin_z` and pairs: direct evaluation on occupations.
* Theorems: `C39_spin_z`, `C39_two_sites`, `C39_outside`, `C39_all_pairs`.
* Includes the ValueError for sites off the lattice.

### C40 Spin number and multiplicity label (proved)

* Code: `interactions.py:compute_spin_number`, `interactions.py:compute_spin_multiplicity`.
* How: `compute_spin_number`, `compute_spin_multiplicity`, with the roots as an oracle.
* Theorems: `C40_exact`, `C40_rounded`, `C40_nearest`, `C40_halfway`, `C40_failure`, `C40_names`, `C40_no_name`, `C40_negative_root_refuted`.
* np.roots is an oracle: exact roots, roots off by less than 1/4, ties, and a witness where a slightly negative root gives -1.

### C41 Dynamic couplings equal off-diagonal Hamiltonian elements (proved)

* Code: `interactions.py:compute_dynamic_interactions`.
* How: `compute_dynamic_interactions`: keys and values of the dictionary equal to sums over images; on any drawing with two lists of sites for C85.
* Theorems: `C41_dynamic`, `C41_row`, `C41_drawn`, `C41_spin_flip_refuted`.
* Keys and values for every filling, and on any drawing with two lists of sites when flips are off; equals the row of H when flips are off; with flips the value is doubled (witness).

### C42 Occupation probabilities are probabilities (proved)

* Code: `baseConstruction.py:get_probability_spin_lattice`, `baseConstruction.py:get_spins_probabilitites_lattice`.
* How: `get_probability_spin_lattice`: weighted sums over the basis; total probability by exchanging sums.
* Theorems: `C42_weights`, `C42_probabilities`, `C42_reverse`, `C42_reverse_all`, `C42_other_spins`, `C42_zero_vector`.
* Exact weights, bounds, sums per site and over the lattice, spin reversal, errors. A zero vector (nan in numpy) is an error of the model.

### C43 Rectangular probability map (proved)

* Code: `baseConstruction.py:get_probability_spin_rectangular_lattice`.
* How: `get_probability_spin_rectangular_lattice`: place and value of each cell.
* Theorems: `C43_map`, `C43_unit`, `C43_not_periodic`, `C43_refuted`.
* Unit vectors proved; general formula with the norm divided out twice; witness where the map differs from the probabilities.

### C44 Dominant determinants (proved)

* Code: `baseConstruction.py:get_dominant_determinants`.
* How: `get_dominant_determinants`: sorting lemmas.
* Theorems: `C44_distinct`, `C44_ties_refuted`, `C44_ties`.
* Distinct magnitudes proved; witness with a tie where one determinant is returned twice, and the general form with ties.

### C45 Most dominant determinants with ties (proved)

* Code: `initialComputations.py:get_most_dominant_determinants`.
* How: `get_most_dominant_determinants`: sorting lemmas, counts clamped as slices.
* Theorems: `C45_most_dominant`, `C45_count`.
* Every vector and every count, negative counts included.

### C46 Lowest eigenpairs selection (proved)

* Code: `davidson.py:get_lowests_eig`.
* How: `get_lowests_eig`: sorted selection with repeated values.
* Theorems: `C46_lowest`.
* Every list of values with repetitions, every count.

### C47 Converged Davidson pairs have small residual (proved)

* Code: `davidson.py:modified_davidson_algorithm`.
* How: One iteration of the loop unfolded as a relation; invariants over the iterations.
* Theorems: `C47_iteration`, `C47_residual`, `C47_true_residual`, `C47_budget`, `C47_no_iteration`.
* One iteration described completely; residuals of a converged run; iteration budget. eigh, qr and norm are arbitrary functions, with the shape contract of qr.

### C48 Davidson search space size (proved)

* Code: `davidson.py:modified_davidson_algorithm`.
* How: Number of columns as an invariant; restart condition reads the number of rows.
* Theorems: `C48_columns`, `C48_bounded`, `C48_never_wider`, `C48_refuted`.
* Exact number of columns; the documented limit is refuted by a run exceeding it for every numerics meeting the contracts.

### C49 Deflating Davidson keeps values and vectors aligned (proved)

* Code: `davidson.py:modified_davidson_algorithm_opt`.
* How: `modified_davidson_algorithm_opt`: lengths and residuals as invariants of the deflating loop; one iteration without convergence unfolded against `residual`, `correction`, `blend`.
* Theorems: `C49_aligned`, `C49_single`, `C49_iteration`, `C49_refuted`.
* Aligned when at most one vector converges per iteration, always for one wanted value; witness with two simultaneous convergences. One iteration without convergence is given as an equation (C49_iteration).

### C50 Only new corrections are returned (proved)

* Code: `davidson.py:get_meaningful_corrections`, `davidson.py:modified_davidson_algorithm_opt`.
* How: `get_meaningful_corrections`: exact list of kept columns.
* Theorems: `C50_kept`, `C50_none`, `C50_never_empty`, `C50_eta_unused`, `C50_refuted`.
* Exact result under orthonormality; the whole basis when nothing is kept; never empty; eta has no effect; witness.

### C51 Single-vector Davidson can accept a spurious value (proved)

* Code: `davidson.py:modified_davidson_algorithm`.
* How: Rayleigh quotient of a vector of norm different from one.
* Theorems: `C51_true_value`, `C51_refuted`.
* Within tol of the spectrum for two wanted values or an orthonormal guess; witness for one value and a small guess.

### C52 Result file names identify the run (proved)

* Code: `initialComputations.py:save_data`, `initialComputations.py:load_data`, `initialComputations.py:perform_configurations_computations`.
* How: File names as strings; decimal digits are injective under a bound.
* Theorems: `C52_spelled`, `C52_injective`, `C52_switches`, `C52_static_refuted`, `C52_sizes_refuted`.
* Injective up to ten sites; switches recovered at every size; witnesses of collisions at eleven sites and for the static switch.

### C53 Saved results reload unchanged (proved)

* Code: `initialComputations.py:save_data`, `initialComputations.py:recover_results`, `initialComputations.py:load_data`.
* How: `save_data`, `recover_results`, `load_data`: round trip field by field, sparse matrix included; the text itself by following its keys.
* Theorems: `C53_reload`, `C53_written`, `C53_saves`, `C53_others`, `C53_unknown`, `C53_without_times`, `C53_lattice_type`, `C53_restored_refuted`.
* Every stored field, the text written, other files untouched, errors without times; witness that the lattice type and the restriction are not restored.

### C54 Sweeping all sectors leaves one file per sector (proved)

* Code: `initialComputations.py:perform_configurations_computations`, `initialComputations.py:save_data`.
* How: `perform_configurations_computations`: invariant over the sectors.
* Theorems: `C54_sweep`, `C54_one_file_each`, `C54_eleven_sites`, `C54_eleven_refuted`, `C54_lattice_type_refuted`.
* Every lattice of at most ten sites, including sweeps that stop on an error; every eleven-site sweep without holes overwrites a sector (shown for all and by a witness).

### C55 Embedding finds the block results it needs (proved)

* Code: `embedding.py:embedding_neel`, `embedding.py:embedding_blocks`, `initialComputations.py:save_data`.
* How: Comparison of the names of C52 with the ones read by embedding.py.
* Theorems: `C55_lookup`, `C55_any_saved`, `C55_missing`, `C55_wrong_run_refuted`.
* Exact condition, lookup failure, and a witness where another run is found.

### C56 Static dressing only shifts the diagonal (proved)

* Code: `embedding.py:embedding_neel`.
* How: `embedding_neel`, the dressing loop as a fold over the basis; only diagonal entries are added.
* Theorems: `C56_dressing`, `C56_turn`, `C56_surroundings`, `C56_thin_refuted`.
* Sides at least 2, any field on the ring, any Hamiltonian of the right size; a witness one site wide where it fails.

### C57 Rotated dressing is rotation invariant (proved)

* Code: `embedding.py:embedding_blocks`, `baseConstruction.py:rotate_determinant`.
* How: `embedding_blocks`, the four rotated dressings; invariance by relabelling the turns.
* Theorems: `C57_static`, `C57_invariant`, `C57_outside`.
* Exact static dressing over the four turns; invariance of the whole dressing, dynamic part included (balanced spins when the neighbour is reversed).

### C58 Self-consistent loop stops (proved)

* Code: `embedding.py:embedding_neel`, `embedding.py:embedding_blocks`.
* How: Both self-consistent loops described as iterations of one step with the stopping test.
* Theorems: `C58_neel`, `C58_neel_never`, `C58_settled`, `C58_blocks`, `C58_blocks_never`.
* Exact description of both loops, for arbitrary numerical libraries; budgets of zero or less.

### C59 Reversed restrictions disable inter-block exchange (proved)

* Code: `embedding.py:embedding_blocks`, `latticeFunctions.py:build_bond_list`, `interactions.py:compute_spin_flip`.
* How: `build_bond_list` with reversed restrictions; the consequences for the spin exchange and for the dictionary.
* Theorems: `C59_bonds`, `C59_exchange`, `C59_holes`, `C59_dropped`, `C59_coupled`, `C59_outside`.
* Every restriction with the first list above the second; determinants without hole on the frontier get no dynamic element at all.

### C60 Displayed determinant matches occupation (proved)

* Code: `baseConstruction.py:get_displayable_determinant`.
* How: `get_displayable_determinant`: character per site.
* Theorems: `C60_shown`, `C60_distinct`.
* Character by character for every determinant; distinct basis elements have distinct displays.

### C61 Displayed lattice matches occupation (proved)

* Code: `baseConstruction.py:get_displayable_rectangular_lattice`, `baseConstruction.py:get_displayable_neighbor`.
* How: Loops over rows and columns of the display equal to a picture of the plane.
* Theorems: `C61_rectangle`, `C61_point`, `C61_neighbor`, `C61_unsized`.
* Whole picture, point by point; the picture of a neighbour; too few sites raise.

### C62 Basis-level display helpers always fail (proved)

* Code: `baseConstruction.py:get_displayable_basis`, `baseConstruction.py:get_displayable_dominant_determinants`.
* How: The helpers receive the basis where the configuration is needed: the attribute is missing.
* Theorems: `C62_basis`, `C62_dominant`, `C62_nothing`.
* The property is the failure itself: AttributeError on every non-empty basis and for ndet >= 1; nothing to show otherwise.

### C63 Spectrum degeneracies (proved)

* Code: `postProcessing.py:save_spectrum`.
* How: The while loop of `save_spectrum` with the invariant: finished values, current value, rest; fuel bounded by the length.
* Theorems: `C63_merged`, `C63_values`, `C63_total`, `C63_drawn`, `C63_lines`.
* Every list of eigenvalues; distinct values with multiplicities; the drawn lines.

### C64 Amplitude repartition (proved)

* Code: `postProcessing.py:plot_determinants_amplitude`.
* How: The counting loop on the sorted amplitudes equals a count of coefficients, by permutation; the empty grid of panels separately.
* Theorems: `C64_curves`, `C64_single`, `C64_none`, `C64_empty`.
* Every vector and abscissa, with the place of each panel; one to three panels raise TypeError, none or fewer ValueError. np.arange is an oracle, square roots are exact.

### C65 Embedding switch survives in BoolInteractions (proved)

* Code: `initialComputations.py:BoolInteractions`, `postProcessing.py:save_hole_probability_lattice`.
* How: Attributes set by the constructor as a lookup; the missing one makes the function fail on every path; the first panel is drawn first, so a failing interp2d ends the function (`C65_interpolation`).
* Theorems: `C65_forgotten`, `C65_others`, `C65_never`, `C65_raises`, `C65_interpolation`, `C65_plots`.
* The property is the failure itself: the switch is lost for all arguments, the function never returns and raises AttributeError on complete data.

### C66 Classical Gram-Schmidt (proved)

* Code: `davidson.py:gramSchmidt`.
* How: `gramSchmidt`: orthogonality invariant over the columns.
* Theorems: `C66_orthonormal`, `C66_narrow`.
* Square and wide matrices of independent columns; IndexError for fewer columns than rows. The norm is any function vanishing only on zero.

### C67 Single-vector Davidson loop exit (proved)

* Code: `davidson.py:davidson_algorithm`.
* How: `davidson_algorithm`: exit condition, rounding (only after the loop), and an input on which the residual never decreases.
* Theorems: `C67_returned`, `C67_rounded`, `C67_rounding`, `C67_decimals`, `C67_endless`.
* Residual of every returned pair, which exit rounds the value and which does not, rounding error, endless loop for every fuel.

### C68 A run diagonalises the t-J Hamiltonian it was asked for (proved)

* Code: `initialComputations.py:perform_initial_computations`, `hamiltonianConstruction.py:build_hamiltonian`, `davidson.py:modified_davidson_algorithm`.
* How: `perform_initial_computations`: composition of C28-C29 and C47.
* Theorems: `C68_run`, `C68_eigenpairs`, `C68_sorted`.
* Row-major rectangles. eigh, qr, norm, np.roots, the random guess and the clock are oracles.

### C69 Dressing by the neighbouring block (proved)

* Code: `embedding.py:embedding_blocks`, `baseConstruction.py:get_spins_probabilitites_lattice`.
* How: `embedding_blocks`, one neighbour: the dressing as a sum over the frontier, symmetric.
* Theorems: `C69_neighbor`, `C69_dressing`, `C69_symmetric`, `C69_turn`.
* Exact static dressing for one neighbour given a row by row numbering found by the isometry search; symmetry for every option.

### C70 The ring mirrors the block (proved)

* Code: `embedding.py:embedding_neel`.
* How: `embedding_neel`: the update of the ring from the block.
* Theorems: `C70_mirror`, `C70_wave`.
* Sides at least 2.

### C71 Embedding files (proved)

* Code: `embedding.py:embedding_neel`, `embedding.py:save_data_embedding_blocks`, `embedding.py:embedding_blocks`.
* How: Names, reads and writes of embedding.py on the directory model.
* Theorems: `C71_spelled`, `C71_apart`, `C71_options`, `C71_reverse_refuted`, `C71_neel`, `C71_neel_error`, `C71_neel_missing`, `C71_neel_complete`, `C71_neel_works`, `C71_blocks`, `C71_blocks_error`, `C71_blocks_missing`, `C71_blocks_complete`, `C71_blocks_works`, `C71_chain`, `C71_source`.
* Names, reads, writes, errors and the chain run - ring - blocks, for every directory; reverse_spins and the threshold are not part of the name (witness). JSON text is modelled as its value.

### C72 Displayed ring matches occupation (proved)

* Code: `baseConstruction.py:get_displayable_outer_embedding_lattice`.
* How: The display with a ring: explicit lines and columns of each site.
* Theorems: `C72_ring`, `C72_site`, `C72_point`.
* Whole picture and the numbering of the ring.

### C73 Plots read the files of the runs (proved)

* Code: `postProcessing.py:generate_plots_configuration`, `postProcessing.py:generate_plots`.
* How: Names read by postProcessing.py compared with those written; fold over the sectors of C54.
* Theorems: `C73_run_file`, `C73_blocks_file`, `C73_ring_refuted`, `C73_spectrum`, `C73_missing`, `C73_sweep`.
* Names, reads and the sweep of spectra; the Neel embedding alone is refuted by a witness.

### C74 Phase diagrams are blank (proved)

* Code: `postProcessing.py:save_phase_space`.
* How: `save_phase_space`: the shifted call raises before any iteration; caught or not depending on the number of states; fold over the sectors.
* Theorems: `C74_blank`, `C74_fails`, `C74_sizes`, `C74_axes`, `C74_linspace`, `C74_axes_refuted`.
* The property is the failure itself: blank maps or TypeError for all arguments; matplotlib with nb_v = nb_t + 1 is not modelled. The axis of t/J is refuted for every number of points; the points of np.linspace are stated.

### C75 Spectra along t/J (proved)

* Code: `postProcessing.py:plot_spectrum_dependance`.
* How: `plot_spectrum_dependance`: the gathered points from C68, C40 and sorting; the loop by a measure (label runs get longer) and by an inductive relation that describes every turn.
* Theorems: `C75_scaled`, `C75_no_exchange`, `C75_points`, `C75_unsorted`, `C75_gathered`, `C75_too_many`, `C75_reorganised`, `C75_untangled`, `C75_labels_refuted`, `C75_drawn`, `C75_undrawable`, `C75_integer_spin`.
* Every family of curves; the loop is pinned step by step by an inductive relation; the labels of a drawn curve may change along it (witness). C75_unsorted covers values stored in any order.

### C76 Bars of the embedding effect (proved)

* Code: `postProcessing.py:plot_embedding_effect_on_determinants`, `postProcessing.py:generate_plots_configuration`.
* How: Sorting lemmas; first index of a value has that value.
* Theorems: `C76_bars`, `C76_missing`, `C76_run`.
* Ties included; KeyError beyond the dimension.

### C77 Sectors of the exchanges of the dynamic embedding (proved)

* Code: `embedding.py:embedding_blocks`.
* How: `embedding_blocks`: numbers of the constructors, case analysis on the exchange; keys of the register are invariant; shapes and restrictions of the two changed blocks (`C77_shape`, `C77_restriction`).
* Theorems: `C77_exchange`, `C77_register`, `C77_reversed`, `C77_shape`, `C77_restriction`.
* Numbers and register for every exchange; the reversed case is refuted for every filling with different numbers.

### C78 compute_spin_and_multiplicity fails (proved)

* Code: `davidson.py:compute_spin_and_multiplicity`.
* How: `compute_spin_and_multiplicity` with the basis as configuration; the same for `compute_spin_number` (`C78_number`).
* Theorems: `C78_attribute`, `C78_zero`, `C78_number`.
* The property is the failure itself, for every basis and vectors.

### C79 Projection on the orthogonal complement (proved)

* Code: `davidson.py:perform_matrix_orthogonal_projection`.
* How: `perform_matrix_orthogonal_projection`: the rows of a square orthonormal matrix are orthonormal (sum of squares of I - QQ^T), then resolution of every vector.
* Theorems: `C79_projection`, `C79_spectrum`, `C79_too_many`.
* The hypotheses on lin.qr are on the factor of the given matrix only: orthonormal columns, each vector a combination of the first columns.

### C80 Densities and charge (proved)

* Code: `postProcessing.py:save_electron_probability_lattice`.
* How: C43 on both spins and the entrywise difference.
* Theorems: `C80_charge`, `C80_absent`, `C80_pictures`, `C80_total`.
* Normalised vectors; interp2d is an oracle that only has to return.

### C81 Spin multiplets across the bases (proved)

* Code: `hamiltonianConstruction.py:build_hamiltonian`, `baseConstruction.py:construct_basis`, `interactions.py`.
* How: `assembled`: matrix = wave-function operator (C29), which commutes with S-; |S- psi|^2 = |S+ psi|^2 + (n_up - n_down) |psi|^2, so S- is injective; induction on the number of downs, then spin reversal.
* Theorems: `C81_lowered`, `C81_injective`, `C81_energies`, `C81_levels`, `C81_converse_refuted`.
* Both exchange switches equal; the converse (energies of a smaller projection in a larger one) is refuted on two sites.

### C82 Initial guesses of main.py (proved)

* Code: `main.py:447-456`, `main.py:478-487`, `baseConstruction.py:compute_hash_table`.
* How: Fold invariant of the filling loop with C03 for the rows; the concrete determinants by computation on their occupations, the bonds from C13.
* Theorems: `C82_columns`, `C82_orthonormal`, `C82_too_many`, `C82_order_refuted`, `C82_main`.
* The statements on the two lattices of main.py are on their concrete lists; the rest is for all lists.

### C83 What main.py prints and writes (proved)

* Code: `main.py:489-564`, `embedding.py:embedding_neel`.
* How: The script as a composition of C71, C45 and C61; a run that ends is built from C01, C21, C56, C43 and C70, without computing the basis.
* Theorems: `C83_earlier`, `C83_missing`, `C83_script`, `C83_file`, `C83_run`.
* A successful run on the eighteen sites is proved to exist (C83_run); its linear algebra is a made-up oracle.

### C84 K and L matrices (proved)

* Code: `latticeFunctions.py:build_K_matrix`, `latticeFunctions.py:build_L_matrix`.
* How: `mset` on `mzeros` entry by entry.
* Theorems: `C84_K`, `C84_L`, `C84_small`.
* Nothing in the program calls these two functions.

### C85 Second-order dressing by exchanges with one neighbouring block (proved)

* Code: `embedding.py:528-719`, `interactions.py:compute_dynamic_interactions`, `embedding.py:embedding_blocks`.
* How: `dynamic_part`: each exchange either couples nothing (C59) or gives the dictionary of C41 on the two blocks with lists of sites from both sides, keys being the pairs of states one jump away; the double loop over the keys is a sum over ordered pairs; the register of perturbators turns the loops over sites and determinants into one sum over states. Divisions by zero are excluded by hypothesis.
* Theorems: `C85_dressing`, `C85_once_refuted`.
* Hypotheses: the denominators are not zero; a reversed neighbour needs as many ups as downs (C77 shows what happens otherwise). That each intermediate state counts once is refuted on two sites beside two sites.

### C86 Second-order dressing on the four sides of a square (proved)

* Code: `embedding.py:528-719`, `baseConstruction.py:rotate_determinant`.
* How: Same fold with the four turned indices; the turned index of a determinant is the index of the turned state (C12).
* Theorems: `C86_dressing`.
* Square blocks; hypotheses as for C85.

### C87 The lowest Davidson value goes down and stays inside the spectrum (proved)

* Code: `davidson.py:modified_davidson_algorithm`, `davidson.py:get_lowests_eig`.
* How: The mean of the projected matrix is the mean of the matrix on the blended vector; the unit vectors found stay in the next basis, so its lowest value is below their mean; the mean of a symmetric matrix is a weighted mean of its levels.
* Theorems: `C87_monotone`, `C87_bounds`.
* The accuracy of eigh and the spans of qr are hypotheses on the run, met exactly by the example.

### C88 The sign of t is a choice of signs of the basis (proved)

* Code: `hamiltonianConstruction.py:build_hamiltonian`, `interactions.py:compute_hopping_integral`, `interactions.py:compute_singlet_displacement`, `interactions.py:compute_next_hopping_integral`.
* How: C29 and term by term: a bond joins squares of opposite colours, so a hop changes the sign of the holes and a move over two bonds does not; the eigenvalue equation is then multiplied by the signs.
* Theorems: `C88_elements`, `C88_energies`.
* Row-major lattices, any restriction of sites.

### C89 Marshall's signs: off-diagonal elements of the spin part (proved)

* Code: `hamiltonianConstruction.py:build_hamiltonian`, `interactions.py:compute_spin_flip`.
* How: C29: off the diagonal only exchanges are left, each moving one down across a bond; the mean is a sum over pairs of determinants, compared term by term.
* Theorems: `C89_elements`, `C89_mean`.
* J >= 0; with holes the three moves must be off.

### C90 Without holes the lowest state is unique and alternates (proved)

* Code: `hamiltonianConstruction.py:build_hamiltonian`, `interactions.py:compute_spin_flip`, `baseConstruction.py:construct_basis`.
* How: The sizes of a lowest state form a lowest state (variation of the mean), so an amplitude that vanishes makes its neighbours vanish; exchanges along bonds connect all states of the sector (a spin is carried to its place along a shortest path). Two independent lowest states would give one with a vanishing amplitude.
* Theorems: `C90_unique`.
* That e is the lowest energy is a hypothesis (over the rationals it may not exist); the example proves it for four sites.

### C91 Without holes the lowest state has the smallest spin of its filling (proved)

* Code: `interactions.py:compute_S2`, `interactions.py:compute_S2_exp_val`, `hamiltonianConstruction.py:build_hamiltonian`, `interactions.py:compute_spin_flip`.
* How: The lowest state is unique (C90) and S^2 keeps its energy, so it is an eigenvector of S^2; it overlaps a product of pairs of opposite colours, all of whose terms have Marshall's signs, and on which S^2 is j(j+1).
* Theorems: `C91_spin`.
* That e is the lowest energy is a hypothesis, proved in the example for four sites.

### C92 Order of the lowest energies of the fillings without holes (proved)

* Code: `hamiltonianConstruction.py:build_hamiltonian`, `baseConstruction.py:construct_basis`.
* How: An energy of the smaller sector is found again in the larger one by lowering (C81) with a spin above j, whereas the lowest state there has spin j and is the only one (C91, C90).
* Theorems: `C92_order`.
* The lowest energy of the second filling is a hypothesis, as in C91.

### C93 Parity of the lowest state under reversal of the spins (proved)

* Code: `baseConstruction.py:reverse_spins_vect`, `hamiltonianConstruction.py:build_hamiltonian`.
* How: The reversed vector is a state of the same energy (reversal commutes with the matrix), hence a multiple; the factor is the product of the Marshall signs of a state and its reverse, which is -1 to the number of black squares.
* Theorems: `C93_reversed`.
* As C91.

### C94 Signs recognise the lowest state (proved)

* Code: `hamiltonianConstruction.py:build_hamiltonian`, `interactions.py:compute_spin_flip`, `baseConstruction.py:construct_basis`.
* How: With v nowhere zero and of energy e, the mean of any u minus e times its size is a sum over pairs of - v_i a_ij v_j (u_i/v_i - u_j/v_j)^2 / 2, each term not negative by C89. The converse is C90.
* Theorems: `C94_certificate`, `C94_characterised`.
* The converse needs no holes and J > 0, as C90.

### C95 Without frustration the lowest energy is the same for all spins (proved)

* Code: `hamiltonianConstruction.py:build_hamiltonian`, `interactions.py:compute_S2`, `interactions.py:compute_hopping_integral`, `interactions.py:compute_spin_flip`.
* How: C29 term by term (the sign of t is removed as in C88), then the sum of squares of C94. Lowering a spin adds amplitudes of one sign, since the signs look at the holes only, and reversal keeps them; so the state is carried to no downs, where the spin is largest, and back to any number of downs.
* Theorems: `C95_elements`, `C95_lowest`, `C95_sectors`, `C95_frustrated_refuted`.
* A state with the signs is a hypothesis (over the rationals it may not exist); the example has one hole and three spins. C95_frustrated_refuted: with J > 0 part (b) fails.

### C96 Ferromagnetic exchanges: one lowest state, of the largest spin (proved)

* Code: `hamiltonianConstruction.py:build_hamiltonian`, `interactions.py:compute_hopping_integral`, `interactions.py:compute_spin_flip`, `interactions.py:compute_S2`.
* How: Exchanges of two different neighbours (a hop or a spin flip, each with a strictly negative signed element) connect all states of a sector, so the argument of C90 applies with the signs of C95; C95 gives a state of the same energy with the largest spin, of which all others are multiples.
* Theorems: `C96_unique`, `C96_spin`.
* That e is the lowest energy is a hypothesis, proved in the example for one hole and three spins; compute_S2 with several holes needs sets listed in order, as C37.

### C97 Motions of the lattice (proved)

* Code: `hamiltonianConstruction.py:build_hamiltonian`, `baseConstruction.py:get_index_in_basis`, `interactions.py:compute_hopping_integral`, `interactions.py:compute_spin_flip`.
* How: A motion is injective on the sites, so it permutes the determinants of the sector (`FMotion.before`); the terms of the t-J operator are relabelled one by one. The parities: the moved state has the lowest energy, so by C90/C96 it is x times the state, x^2 = 1 by the norm and its sign is the change of the sign rule, counted with the colours of the squares (`sign_carried`).
* Theorems: `C97_elements`, `C97_states`, `C97_mirrors`, `C97_parity`, `C97_parity_holes`.
* That e is the lowest energy is a hypothesis of the two statements on parities, proved in the examples.

### C98 Range of the energies of the exchanges (proved)

* Code: `hamiltonianConstruction.py:build_hamiltonian`, `interactions.py:compute_spin_flip`, `interactions.py:compute_static_spin_interaction`.
* How: The rows of H sum to zero (C33) and its other elements are not negative (C89), so the mean is minus half a sum of a_ij (u_i - u_j)^2, between 0 and twice the smallest diagonal element; the bonds are counted row by row (`PEnergy.count_bonds`). The chess board is a determinant of the sector, since half of the squares are black (`FEnergy.count_black`), and has opposite spins on every bond.
* Theorems: `C98_range`, `C98_top`, `C98_neel`.
* The bounds need both parts of the exchanges; that e is the lowest energy is a hypothesis of C98_neel.

### C99 The values of the Davidson search are above the levels, rank by rank (proved)

* Code: `davidson.py:modified_davidson_algorithm`, `davidson.py:get_lowests_eig`.
* How: With more unknowns than equations (`PLevels.nullspace`, by elimination) some combination of the first k + 1 vectors is orthogonal to the levels at most l + eps if there are only k of them; its mean is at most l + eps by the contract and above it by the spectrum. The same with the next basis in place of the spectrum gives the ranks along the iterations, since orthonormal families of full size span everything (`ortho_complete`).
* Theorems: `C99_levels`, `C99_monotone`.
* That eigh and qr are accurate is a hypothesis (well_diagonalised), met in the example with eps = 0.

### C100 Range of the energies of the whole Hamiltonian (proved)

* Code: `hamiltonianConstruction.py:build_hamiltonian`, `interactions.py:compute_hopping_integral`, `interactions.py:compute_singlet_displacement`, `interactions.py:compute_hole_repulsion`.
* How: Rows of the operator: sizes of the elements of a row are bounded part by part (each image appears once among the states; four neighbours, eight second neighbours, twelve paths, four later neighbours of a hole; the number of bonds); a symmetric matrix with bounded rows has bounded mean values. The signed bounds add C98 to the bound of the hops.
* Theorems: `C100_range`, `C100_tj`.
* Bound of every mean value and every energy, for all switches and couplings, and the signed bounds of hops and exchanges.

### C101 Sum of the energies (proved)

* Code: `hamiltonianConstruction.py:build_hamiltonian`, `interactions.py:compute_static_spin_interaction`, `interactions.py:compute_hole_repulsion`.
* How: Exchanging two sites permutes the states of a sector, so the number of states with opposite spins (or holes) at two sites does not depend on the sites (`PTrace.pairs_same`); summed over all pairs of sites it is 2ab (or h(h-1)) times the dimension. Bonds and diagonals are counted row by row. The squares of orthogonal rows give the columns (`PTrace.other_side`, by `nullspace`), so the energies add up to the diagonal.
* Theorems: `C101_trace`, `C101_levels`, `C101_energies`.
* Trace for all sizes, and sum of the energies of every complete set of orthogonal eigenvectors.

### C102 Energies follow the couplings (proved)

* Code: `hamiltonianConstruction.py:build_hamiltonian`, `interactions.py:compute_static_spin_interaction`, `interactions.py:compute_hole_repulsion`.
* How: If fewer levels of the second matrix are at most t + delta than levels of the first at most t, some combination of the latter is orthogonal to the former (`nullspace`); its mean is at most t in the first matrix and, expanded in the second set (`PShift.all_mixed`), above t + delta in the second (`PShift.count_levels`). The Hamiltonian is linear in the couplings (C35), so the difference of the means is the mean of the Hamiltonian at the difference of the couplings: bounded by C100, a diagonal that is not negative for repulsions, not positive by C98 for exchanges.
* Theorems: `C102_shift`, `C102_couplings`, `C102_concave`, `C102_repulsions`, `C102_exchanges`, `C102_lowest`.
* Rank by rank over complete sets of orthogonal eigenvectors; that such sets exist is a hypothesis (over the rationals they may not), the bounds on mean values and on the lowest energy need none.

### C103 Hamiltonian on cluster and ring lattices (proved)

* Code: `hamiltonianConstruction.py:build_hamiltonian`, `interactions.py:compute_spin_flip`, `latticeFunctions.py:build_bond_matrix_block_embedding`, `latticeFunctions.py:build_bond_matrix_neel_embedding`.
* How: The assembly is proved once for any drawn lattice with the exchange of the flips given by the numbers of the sites (`PHam`, `tj_by` with `number_doping`); `PDrawn.by_same` compares it with the rule of the drawing. Laying a figure on another permutes the determinants (`FDrawn.gbefore`) and the bonds, and `PDrawn.transport` carries the eigenvectors. The rings need two sites on each side, else an angle of the ring is not recognised (C19).
* Theorems: `C103_assembly`, `C103_numbers`, `C103_elements`, `C103_figures`, `C103_energies`, `C103_row_sums`, `C103_spin`, `C103_rectangle`, `C103_ring`, `C103_clusters`, `C103_transposed`, `C103_clusters_refuted`, `C103_ring_refuted`, `C103_run`, `C103_eigenpairs`.
* Row sums of the exchange with hole-dependent exchanges are refuted on both other lattices (C103_clusters_refuted, C103_ring_refuted). That the numbering of the clusters is found is a hypothesis, met in the example.

### C104 All energies, real amplitudes (proved)

* Code: `hamiltonianConstruction.py:build_hamiltonian`, `davidson.py:modified_davidson_algorithm`.
* How: The spectral theorem for symmetric real matrices, without compactness: a form that is not negative vanishes on some nonzero vector or is bounded below by a positive multiple of the length (`PReal.psd_split`, by eliminating the first coordinate), so the least upper bound of the lower bounds of the form is reached (`PReal.lowest_exists`); shifting the states found upwards gives the next one (`PReal.levels_upto`); the levels of two complete sets agree by counting (`PReal2.weyl` with 0). `PRealQ` sends the rational matrix and vectors of the model to the real ones.
* Theorems: `C104_states`, `C104_rational`, `C104_ground`, `C104_sum`.
* Over the real numbers of the standard library; existence and uniqueness of the spectrum are proved, not assumed.

### C105 Range and comparison of all real energies (proved)

* Code: `hamiltonianConstruction.py:build_hamiltonian`, `interactions.py:compute_static_spin_interaction`, `interactions.py:compute_hole_repulsion`, `interactions.py:compute_hopping_integral`.
* How: Mean values of rational vectors are dense in those of real vectors (`PRealQ.mean_ge`), so the bounds of C98, C100, C102 on rational vectors carry over to real ones; ranks are compared by Weyl's inequality (`PReal2.weyl`).
* Theorems: `C105_range`, `C105_exchanges`, `C105_tj`, `C105_neel`, `C105_couplings`, `C105_concave`, `C105_repulsions`, `C105_stronger`.
* The statements of C98, C100 and C102 for real energies, without assuming a rational spectrum.

### C106 The ground state exists, is unique and has known signs (proved)

* Code: `hamiltonianConstruction.py:build_hamiltonian`, `interactions.py:compute_spin_flip`, `interactions.py:compute_hopping_integral`.
* How: The minimum of the form is attained (C104); replacing the amplitudes by their sizes with the signs of the determinants cannot raise the form (C89, C95), so a signed ground state exists, has no zero because the matrix is connected (`indices_linked`), and two ground states would combine to one with a zero.
* Theorems: `C106_signs`, `C106_ferro`.
* Existence, uniqueness and signs of the ground state, without assuming a rational one (C90, C94 and C96 do).

### C107 Values of the Davidson run against the exact energies (proved)

* Code: `davidson.py:modified_davidson_algorithm`, `hamiltonianConstruction.py:build_hamiltonian`.
* How: A residual of size r leaves an exact energy within r (expansion in the complete set of C104); Courant-Fischer for the ranks (`PReal2`). The run is that of C47-C51 and C99.
* Theorems: `C107_near`, `C107_unit`, `C107_ritz`, `C107_levels`.
* The contracts of eigh, qr and norm are hypotheses, met in the example; no rational spectrum is assumed.

### C108 Spin of the exact ground state (proved)

* Code: `interactions.py:compute_S2`, `hamiltonianConstruction.py:build_hamiltonian`.
* How: compute_S2 is symmetric (C38), so its product is read off unit vectors; it commutes with the Hamiltonian (C36), so it maps the only ground state to a multiple of itself; the multiple is found by overlap with a state of neighbouring pairs whose spin is known (C91) and whose signs are Marshall's.
* Theorems: `C108_matrix`, `C108_spin`.
* compute_S2 is a model function on rational vectors; its matrix is read off the unit vectors.

### C109 Exact energies in sectors of different spin projection (proved)

* Code: `hamiltonianConstruction.py:build_hamiltonian`, `interactions.py:compute_spin_flip`, `interactions.py:compute_static_spin_interaction`, `interactions.py:compute_S2`.
* How: Products of the lowering operator and of the flip of all spins carry wave functions from one number of downs to another (`PCarry.carry_up`, `carry_all`): they commute with the t-J operator and with S squared, keep the signs of the amplitudes, and towards equal numbers keep a positive part of the length. `FReal6` writes such an operator as a rational matrix between the two bases and extends it to real vectors. Being injective it compares dimensions and, by `PReal2.underdetermined`, ranks; the strict order follows from the spin of the ground state (C108) and the lower bound of the mean spin; for ferromagnetic exchanges it carries the signed ground state of C106, and passing by the sector without downs gives its spin.
* Theorems: `C109_mean`, `C109_levels`, `C109_ranks`, `C109_order`, `C109_ferro`, `C109_full_spin`.
* The statements of C38, C81, C92, C95 and C96 for real energies; ranks are compared, no rational spectrum is assumed.

### C110 Exact spectra and ground states under the symmetries (proved)

* Code: `hamiltonianConstruction.py:build_hamiltonian`, `interactions.py:compute_hopping_integral`, `interactions.py:compute_spin_flip`, `latticeFunctions.py:build_rectangular_bond_matrix`.
* How: Each symmetry is a permutation of the rows with a sign per row that carries one matrix to the other (`FReal8.relabelled_states`); the elements are compared by C103, C88 and the flip of all spins (`reverse_element`). The only ground state (C106) is mapped to a multiple of itself, and the sign of the multiple is read off the known signs of its amplitudes (`FReal8.parity_real`).
* Theorems: `C110_figures`, `C110_hops`, `C110_reversal`, `C110_parity`, `C110_parity_holes`, `C110_reversed_parity`.
* The statements of C88, C93, C97 and C103 for complete real spectra and for the exact ground state.

### C111 Rounding errors of the Hamiltonian and of its levels (proved)

* Code: `interactions.py:compute_static_spin_interaction`, `interactions.py:compute_hole_repulsion`, `interactions.py:compute_energy`, `hamiltonianConstruction.py:build_hamiltonian`, `hamiltonianConstruction.py:add_ham_coo`, `davidson.py:modified_davidson_algorithm`.
* How: `Round.v` repeats the functions that compute with floats, with a rounding after each operation. Each rounded element is compared with the sum of its terms by induction over the additions (`PRound`), the terms listed by the exact proof of the assembly (`FRound.rounded_core`); `PBinary` proves that the binary rounding returns the nearest number with p bits and so has relative error 1/2^p. The levels: a bounded perturbation of the rows moves a form by at most the bound (Schur test, `FRoundReal.moved_form`), then expansion in the exact states for a single eigenvalue and Weyl's inequality for the ranks. The Davidson runs of C107 are repeated on the rounded matrix, which need not be symmetric: a small residual is still small for the exact matrix (`FRoundDav.near_rounded`), and the mean values differ by the bound (`FReal4.step_near`).
* Theorems: `C111_nearest`, `C111_binary`, `C111_works`, `C111_elements`, `C111_rows`, `C111_means`, `C111_symmetric`, `C111_energy`, `C111_exact`, `C111_energies`, `C111_triangle`, `C111_levels`, `C111_davidson`, `C111_ranks`.
* Rounded operations are those of the assembly (interactions.py, hamiltonianConstruction.py); exponents are unbounded, and the operations inside the Davidson iterations are exact, up to the contracts of eigh, qr and norm.

### C112 Rounding errors of the spin of a vector (proved)

* Code: `interactions.py:compute_S_plus_S_minus`, `interactions.py:compute_S2`, `interactions.py:compute_S2_exp_val`, `interactions.py:compute_spin_number`.
* How: `RoundSpin.v` repeats the spin operators of interactions.py with a rounding after each operation. Three runs side by side (rounded, exact, exact on the magnitudes) by induction over the loops (`PRoundSpin`); each component is the target of at most one determinant, so one exchange costs one rounding. The mean value is then bounded by C38 applied to the magnitudes, the quotient by `FRoundSpin.quotient_near`, and the spin by the argument of C40. The refutation runs the model on binary64 floats.
* Theorems: `C112_elements`, `C112_mean`, `C112_value`, `C112_spin`, `C112_exact`, `C112_failures`, `C112_singlet_refuted`.
* The factor of compute_S2, the doubling and the halving are exact in floats and not rounded. That a singlet always gets spin 0 is false (C112_singlet_refuted).

### C113 Rounding errors of the probabilities (proved)

* Code: `baseConstruction.py:get_probability_spin_lattice`, `baseConstruction.py:get_spins_probabilitites_lattice`, `baseConstruction.py:get_probability_spin_rectangular_lattice`.
* How: `RoundProb.v` repeats the probabilities of baseConstruction.py with a rounding after each operation. The sum over the determinants is followed by induction beside the exact one (`FRoundProb.site_near`), all terms being non-negative; the quotient by the rounded square of the norm is `quotient_error`. The refutation runs the model on binary64 floats.
* Theorems: `C113_weights`, `C113_probabilities`, `C113_rectangle`, `C113_exact`, `C113_failures`, `C113_zero_vector`, `C113_total_refuted`.
* The product with the truth value of the comparison is exact and not rounded. A sum of the three probabilities above 1 is possible (C113_total_refuted).

### C114 The rounded Hamiltonian is exactly symmetric (proved)

* Code: `hamiltonianConstruction.py:build_hamiltonian`, `hamiltonianConstruction.py:add_ham_coo`, `interactions.py:add_hopping_integral`, `interactions.py:add_next_hopping_integral`, `interactions.py:add_spin_flip`, `interactions.py:add_singlet_displacement`, `interactions.py:add_hole_repulsion`.
* How: The loops are run once with codes in place of the amplitudes (`PRoundSym.codes`); the rounded run writes the values of the codes at the same places (`run_decodes`). The exact Hamiltonian with independent weights, whose symmetry is known, then counts how often each code is written at a place (`same_counts`), and at one place the terms come in one order (`one_way`: the shifts and the exchanges of the hole never reach one state both), so the two lists of terms are equal (`places_same`). The refutations run the model on binary64 floats.
* Theorems: `C114_symmetric`, `C114_lower`, `C114_order`, `C114_half_turn_refuted`, `C114_set_order_refuted`.
* The rounding is any function of the exact result; the order in which scipy adds duplicates is a permutation depending on the list of terms only. The diagonal depends on the order of the sets (C114_set_order_refuted).

### C115 Lattice motions and spin reversal of the rounded Hamiltonian (proved)

* Code: `hamiltonianConstruction.py:build_hamiltonian`, `baseConstruction.py:rotate_determinant`, `baseConstruction.py:reverse_spins_basis`, `interactions.py:compute_static_spin_interaction`, `interactions.py:compute_hole_repulsion`, `interactions.py:compute_energy`.
* How: The counting argument of C114 for two configurations (`PRoundMove.places_same2`): the exact Hamiltonian with independent weights is invariant under the motion (C97) and the reversal, so the same codes are written at the moved place, in the same order. The diagonal receives the static value and the repulsion only (`PRoundDiag.diagonal_places`), two terms whose rounded sum does not depend on their order; both values read spins only through pairs of equal or opposite ones and holes (`flip_static`, `flip_repulsion`).
* Theorems: `C115_motions`, `C115_rotations`, `C115_half_turn`, `C115_spin_reversal`, `C115_energy`.
* The rounding is any function of the exact result. Motions: elements off the diagonal (on the diagonal the claim is false, C114_half_turn_refuted). Spin reversal: all elements.

### C116 The rotation test of the Hamiltonian passes for every order of the sets (proved)

* Code: `tests/test_hamiltonian_construction.py:test_assert_rotation_invariant`, `hamiltonianConstruction.py:build_hamiltonian`, `baseConstruction.py:rotate_determinant`, `interactions.py:compute_static_spin_interaction`.
* How: A single element is at most the sum of its row, so C111 bounds its distance to the exact element (`FRoundTest.element_near`); the exact elements agree by C97, C31 and C29, and two elements near the same number are near each other. The assertion follows since a rounded difference below half a unit of the last decimal rounds to zero (`close_almost`). `TestDefs.v` holds the assertion.
* Theorems: `C116_motions`, `C116_rotations`, `C116_half_turn`, `C116_orders`, `C116_test`.
* assertAlmostEqual is modelled as: the floats are equal, or the rounded difference is nearest to zero at the given number of decimals. The example runs the theorem on the data of the test.

### C117 Couplings on a grid of powers of two are never rounded (proved)

* Code: `hamiltonianConstruction.py:build_hamiltonian`, `interactions.py:compute_static_spin_interaction`, `interactions.py:compute_hole_repulsion`, `interactions.py:add_spin_flip`, `baseConstruction.py:rotate_determinant`.
* How: The rounded and the exact run go side by side with the run that adds the magnitudes (`PRound.locked_build`), with the invariant: equal numbers, multiples of the grid, not larger than the magnitude beside them (`FGrid.gridded`). Every partial sum is thus at most the final sum of magnitudes, which is bounded by the bound of the energies (C111), so no partial sum is rounded (`PGrid.static_grid`, `repulsion_grid`, `add_all_grid`). A multiple of 2^e below 2^(p+e) has p bits, hence is its own nearest float.
* Theorems: `C117_representable`, `C117_exact`, `C117_binary`, `C117_orders`, `C117_rotations`.
* C117_exact holds for any rounding that keeps the multiples of the grid below the bound; C117_representable shows this for floats of p bits with unbounded exponents.

### C118 With one exchange coupling the rounded Hamiltonian is kept exactly by the symmetries (proved)

* Code: `hamiltonianConstruction.py:build_hamiltonian`, `interactions.py:compute_static_spin_interaction`, `interactions.py:compute_hole_repulsion`, `baseConstruction.py:rotate_determinant`.
* How: The terms of the static interaction are all 0 or one and the same float, so the rounded sum is the n-fold iterate of one rounded addition, where n is read off the exact sum with unit couplings (`FOne.static_count`); the counts of the repulsion are read off the exact sums with one coupling 1 (`repulsion_count`). The exact sums agree by the theorems on the exact Hamiltonian (`FMotion.motion_tj`), hence so do the counts and the rounded values (`diagonal_kept`). Off the diagonal: C114_order and C115_motions.
* Theorems: `C118_binary`, `C118_orders`, `C118_motions`, `C118_rotations`, `C118_half_turn`.
* For elements off the diagonal this is C114 and C115; new is the diagonal. C118_binary shows that rounding to p bits meets the hypothesis.

### C119 Changing the unit of energy by a power of two changes nothing else (proved)

* Code: `hamiltonianConstruction.py:build_hamiltonian`, `interactions.py:compute_static_spin_interaction`, `interactions.py:compute_hole_repulsion`, `interactions.py:add_spin_flip`.
* How: If two numbers of p bits were nearest to x, both with an even last bit, each could be moved by its last place towards the other without leaving the numbers of p bits, so their distance would be at most the smaller last place; but it is an even multiple of it (`FScale.no_tie`). The scaled nearest number is the nearest of the scaled one (`nearest_scale`), so rounding commutes with the factor. In the Hamiltonian the factor is then moved out of each partial sum (`static_scaled`, `repulsion_scaled`, `add_all_scaled`), for the elements off the diagonal in the entries decoded from the run with codes (C114).
* Theorems: `C119_nearest`, `C119_binary`, `C119_scaled`, `C119_units`, `C119_signs`, `C119_triple_refuted`.
* C119_scaled holds for any rounding that commutes with the factor; C119_binary shows this for floats of p bits with unbounded exponents. C119_triple_refuted: the factor 3.

### C120 Rounded diagonal energies are monotone in the couplings (proved)

* Code: `interactions.py:compute_static_spin_interaction`, `interactions.py:compute_hole_repulsion`, `hamiltonianConstruction.py:build_hamiltonian`.
* How: If the nearest number of x were above that of a larger y, x and y would be on the wrong sides of their middle (`FMono.C120_binary_pf`). The two loops run side by side with the invariant that one partial sum is at most the other (`C120_static_core`, `C120_repulsion_core`); the diagonal holds one rounded sum of the two values (`PRoundDiag`, `FRoundMove.fl_diagonal`), whose order does not matter.
* Theorems: `C120_binary`, `C120_static`, `C120_repulsion`, `C120_diagonal`, `C120_attractive`, `C120_repulsive`.
* Off the diagonal the elements are not monotone in the couplings (the singlet terms have both signs); no claim is made there.

### C121 The sign of the eigenvector does not change the rounded spin and probabilities (proved)

* Code: `interactions.py:compute_S2`, `interactions.py:compute_S2_exp_val`, `interactions.py:compute_spin_number`, `baseConstruction.py:get_probability_spin_lattice`, `baseConstruction.py:get_spins_probabilitites_lattice`.
* How: The factor is moved through every step of the loops, failures included (`FVec.fold_up`, `S2_up`, `proba_up`); numerator and squared norm both get the square of the factor, which commutes with rounding because the factor does, and cancels (`ratio_up`). That rounding to p bits commutes with plus or minus a power of two is C119.
* Theorems: `C121_spin_operator`, `C121_spin`, `C121_probabilities`, `C121_binary`.
* The norm of the library is any function that scales with the vector. The map of a rectangular lattice, which divides twice by the squared norm (C43), is not included.
