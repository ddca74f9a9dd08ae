{"id": "C01", "title": "Basis enumerates every occupation exactly once", "statement": "For a configuration with n sites, h >= 0 holes and b >= 0 spins down with h + b <= n, construct_basis returns a list in which every assignment of {hole, down, up} to the n sites having exactly h holes and b downs occurs exactly once, and nothing else occurs. Each entry lists holes, then downs, then ups, each group in increasing site order.", "quantifier": "for all n, h, b", "why_tests_cant": "The basis grows combinatorially; a test can only enumerate a few tiny lattices.", "anchors": ["baseConstruction.py:construct_basis"]}
{"id": "C02", "title": "Basis size equals nb_conf; impossible fillings are empty or rejected", "statement": "len(construct_basis(c).determinants) = c.nb_conf = C(n,h)*C(n-h,nalpha). A negative number of holes raises ValueError; more downs than electrons gives an empty basis of size nb_conf = 0.", "quantifier": "for all n and all integers h, b", "why_tests_cant": "Equality of a count with a closed formula for every size is an induction, not a sample.", "anchors": ["baseConstruction.py:construct_basis", "latticeFunctions.py:compute_dimension", "baseConstruction.py:Configuration.__init__"]}
{"id": "C03", "title": "get_index_in_basis inverts the enumeration, whatever the order inside each group", "statement": "For every position i, get_index_in_basis(c, d) = i whenever d lists the same holes, downs and ups as determinants[i], in any order inside the three groups. It never raises on such a d.", "quantifier": "for all configurations, all i, all reorderings", "why_tests_cant": "Unbounded sizes and factorially many reorderings.", "anchors": ["baseConstruction.py:get_index_in_basis", "baseConstruction.py:compute_hash_table", "baseConstruction.py:get_distance_hash", "baseConstruction.py:project_hash", "baseConstruction.py:reorder_basis_element"]}
{"id": "C04", "title": "get_hash_basis(i) is the i-th basis element", "statement": "For 0 <= i < nb_conf, get_hash_basis(h, nalpha, b, i) terminates without exception and equals construct_basis(c).determinants[i].", "quantifier": "for all fillings and all i below nb_conf", "why_tests_cant": "Loop termination and correctness of the successor algorithm hold for unbounded sizes.", "anchors": ["baseConstruction.py:get_hash_basis", "baseConstruction.py:get_target_hash", "baseConstruction.py:fusion_hash"]}
{"id": "C05", "title": "Out-of-range ranks are detected", "statement": "get_target_hash(n, k, i) with 1 <= k <= n and i >= C(n,k) raises IndexError; it never loops forever nor returns a wrong subset. With k = 0 it returns [] for every i.", "quantifier": "for all n, k, i", "why_tests_cant": "Non-termination cannot be observed by a finite test for all arguments.", "anchors": ["baseConstruction.py:get_target_hash"]}
{"id": "C06", "title": "Index is a bijection and is monotone for the lexicographic order", "statement": "Two in-sector determinants get the same index iff they put the same particle on every site; indices of determinants follow the lexicographic order of (sorted holes, sorted downs); every index lies in [0, nb_conf).", "quantifier": "for all pairs of determinants of the sector", "why_tests_cant": "Injectivity over all pairs of an unbounded family.", "anchors": ["baseConstruction.py:get_index_in_basis", "baseConstruction.py:compute_hash_table"]}
{"id": "C07", "title": "Reordering is canonical and physics-preserving", "statement": "reorder_basis_element never changes which particle sits on which site, yields increasing groups, is idempotent, and two determinants describing the same occupation reorder to the same list.", "quantifier": "for all configurations and determinants", "why_tests_cant": "All permutations of all sizes.", "anchors": ["baseConstruction.py:reorder_basis_element"]}
{"id": "C08", "title": "Site lookup and group lookup agree", "statement": "On an unrestricted configuration get_indexes_of(det, s) contains site x (once) iff get_spin_site(det, x) = s/2; the three groups partition the sites; a restriction R intersects each group with R; any other spin value raises ValueError and asking for a site that is not in the determinant raises ValueError.", "quantifier": "for all determinants, sites, spins, restrictions, and all iteration orders of Python sets", "why_tests_cant": "Set iteration order is an implementation detail that a test run fixes.", "anchors": ["baseConstruction.py:get_indexes_of", "baseConstruction.py:get_spin_site"]}
{"id": "C09", "title": "Spin reversal of determinants and bases", "statement": "On unrestricted configurations reverse_spins exchanges up and down on every site, keeps holes, lands in the sector (h, nalpha), and reversing twice gives the original determinant; reverse_spins_basis lists the flipped sector without repetition. With a proper site restriction the reversed determinant loses sites (refuted in general).", "quantifier": "for all configurations, determinants, set orders", "why_tests_cant": "All determinants of all sectors.", "anchors": ["baseConstruction.py:reverse_spins", "baseConstruction.py:reverse_spins_basis"]}
{"id": "C10", "title": "Spin reversal of vectors is a norm-preserving involution", "statement": "reverse_spins_vect moves the amplitude of each determinant to the amplitude of its spin-reversed partner; the sum of squares is preserved; reversing twice (second time in the flipped basis) returns the vector.", "quantifier": "for all unrestricted configurations and vectors", "why_tests_cant": "All vectors of unbounded dimension.", "anchors": ["baseConstruction.py:reverse_spins_vect"]}
{"id": "C11", "title": "Joining two blocks keeps each block's occupation", "statement": "extend_determinant(c1,c2,d1,d2) is a determinant of the n1+n2-site lattice in which site x < n1 carries d1's particle and site n1+y carries d2's; filtering its list by x < n1 gives back d1 up to order inside groups, and filtering by >= n1 and shifting gives d2.", "quantifier": "for all pairs of unrestricted configurations and determinants, all set orders", "why_tests_cant": "Pairs of unbounded families and set orders.", "anchors": ["baseConstruction.py:extend_determinant", "embedding.py:embedding_blocks"]}
{"id": "C12", "title": "Rotations act as the cyclic group on square lattices", "statement": "On a square lattice (nbh = nbv) rotate_determinant(k, .) is the clockwise rotation by k*90 degrees of the picture: it composes additively mod 4, rotation by 4 is the identity, and it maps the basis bijectively to itself. rotate_determinant(2, .) is a half turn on every rectangle. On a non-square rectangle the odd rotations do not return a determinant (refuted in general).", "quantifier": "for all lattice sizes, determinants, rotation counts (any integer)", "why_tests_cant": "Unbounded sizes.", "anchors": ["baseConstruction.py:rotate_determinant"]}
{"id": "C13", "title": "Rectangular bond matrix is grid adjacency", "statement": "build_rectangular_bond_matrix(nbh,nbv,s)[i,j] = 1 iff the row-major grid points i and j of the (s*nbh) x (s*nbv) grid are at Manhattan distance one, else 0; hence symmetric with zero diagonal.", "quantifier": "for all nbh, nbv, s >= 1 and all i, j", "why_tests_cant": "Unbounded sizes.", "anchors": ["latticeFunctions.py:build_rectangular_bond_matrix", "latticeFunctions.py:build_J_matrix"]}
{"id": "C14", "title": "Outer-ring bond matrix is planar adjacency", "statement": "build_bond_matrix_neel_embedding numbers the ring counter-clockwise from below site 0; entry [i,j] is 1 iff the points are at Manhattan distance one in the plane with ring points at (k,-1), (W,k), (W-1-k,H), (-1,H-1-k). build_bond_matrix_neel_outer_lattice is its ring part.", "quantifier": "for all nbh, nbv, s >= 1 and all i, j", "why_tests_cant": "Unbounded sizes; the test checks one lattice.", "anchors": ["latticeFunctions.py:build_bond_matrix_neel_embedding", "latticeFunctions.py:build_bond_matrix_neel_outer_lattice", "latticeFunctions.py:build_T_matrix"]}
{"id": "C15", "title": "Two-block bond matrix is adjacency of the juxtaposed lattice", "statement": "build_bond_matrix_block_embedding[i,j] = 1 iff the points are adjacent when the second block stands immediately to the right of the first; relabelling the sites row by row gives exactly build_rectangular_bond_matrix(2*nbh, nbv, s).", "quantifier": "for all nbh, nbv, s >= 1", "why_tests_cant": "Unbounded sizes.", "anchors": ["latticeFunctions.py:build_bond_matrix_block_embedding", "latticeFunctions.py:build_U_matrix"]}
{"id": "C16", "title": "Neighbour and bond queries are exact", "statement": "get_neighbors(x, M, R) returns without repetition exactly the sites y allowed by R (everything for [], R itself for a list, the second component for a pair) with M[x,y] = 1; build_bond_list(M,(R0,R1)) lists exactly once every pair i <= j, i in R0, j in R1, M[i,j] = 1.", "quantifier": "for all square matrices, sites, restrictions, set orders", "why_tests_cant": "Set orders and arbitrary graphs.", "anchors": ["latticeFunctions.py:get_neighbors", "latticeFunctions.py:build_bond_list"]}
{"id": "C17", "title": "Second-neighbour queries are exact", "statement": "get_second_neighbors returns exactly the sites at Manhattan distance two, get_diagonal_second_neighbors exactly those with |dx| = |dy| = 1, each once, on every rectangular lattice (intersected with the restriction).", "quantifier": "for all rectangular lattices, sites, set orders", "why_tests_cant": "Unbounded sizes, set orders.", "anchors": ["latticeFunctions.py:get_second_neighbors", "latticeFunctions.py:get_diagonal_second_neighbors"]}
{"id": "C18", "title": "Colinearity on row-major lattices", "statement": "For three distinct sites of a rectangular 'periodic' lattice forming a path, is_bond_linear returns True iff they lie on one row or column; the answer does not depend on argument order; if two coincide or one is bonded to neither other, ValueError is raised.", "quantifier": "for all lattice sizes and all triples, in every argument order", "why_tests_cant": "Unbounded sizes.", "anchors": ["baseConstruction.py:is_bond_linear"]}
{"id": "C19", "title": "Colinearity on the ring-embedded lattice", "statement": "On a 'peripheral' lattice whose block is at least 2 wide and 2 high, is_bond_linear decides geometric colinearity of every path; for blocks one site wide or high it does not (refuted in general).", "quantifier": "for all lattice sizes and all triples", "why_tests_cant": "Unbounded sizes.", "anchors": ["baseConstruction.py:is_bond_linear"]}
{"id": "C20", "title": "Colinearity on cluster lattices, given a transfer matrix", "statement": "If the eigenvector search stops at a matrix that maps the cluster indexing to the row-major indexing of the same grid, is_bond_linear on 'clusters' equals geometric colinearity; colinearity is determined by the graph alone.", "quantifier": "for all lattice sizes, triples, and all outcomes of the search that are graph isomorphisms", "why_tests_cant": "Eigenvector outputs cannot be enumerated.", "anchors": ["baseConstruction.py:is_bond_linear"]}
{"id": "C21", "title": "The initial surrounding wave is a Neel checkerboard", "statement": "In embedding_neel the initial ring determinant has a spin down exactly on ring sites with odd x+y and a spin up on the others, so bonded ring sites carry opposite spins on every lattice.", "quantifier": "for all nbh, nbv, s >= 1", "why_tests_cant": "Unbounded sizes.", "anchors": ["embedding.py:embedding_neel"]}
{"id": "C22", "title": "Hopping produces exactly the one-hole moves", "statement": "compute_hopping_integral(det) lists, once per (hole, occupied neighbour) pair, the determinant where the two sites are exchanged; it never raises, and every image has the same numbers of holes, downs and ups and belongs to the basis.", "quantifier": "for all lattices, determinants, symmetric restrictions, set orders", "why_tests_cant": "All determinants and set orders.", "anchors": ["interactions.py:compute_hopping_integral"]}
{"id": "C23", "title": "Next-neighbour hopping produces each two-step move once, correctly classified", "statement": "compute_next_hopping_integral lists, once per (hole, electron two bonds away) pair, the exchanged determinant, in the colinear list iff the two sites lie on one line, whatever intermediate site is met first.", "quantifier": "for all lattices, determinants, set orders", "why_tests_cant": "Duplicate suppression depends on set order.", "anchors": ["interactions.py:compute_next_hopping_integral"]}
{"id": "C24", "title": "Static spin energy formula", "statement": "compute_static_spin_interaction(det) = sum over bonds carrying opposite spins of -Jx/2 with Jx = Jhpar if some neighbouring hole is aligned with the bond, else Jhper if some hole neighbours the bond, else J. It never raises.", "quantifier": "for all lattices, determinants, couplings, set orders", "why_tests_cant": "All determinants.", "anchors": ["interactions.py:compute_static_spin_interaction"]}
{"id": "C25", "title": "Spin-flip images and their coupling class match the static term", "statement": "On row-major lattices compute_spin_flip lists, once per bond with opposite spins, the determinant with the two spins exchanged, in the class (par/per/undoped) used by the static term for that bond. On cluster and peripheral lattices the two classifications disagree (refuted in general).", "quantifier": "for all row-major lattices, determinants, set orders", "why_tests_cant": "All determinants; two different algorithms must agree everywhere.", "anchors": ["interactions.py:compute_spin_flip", "interactions.py:compute_static_spin_interaction"]}
{"id": "C26", "title": "Singlet displacement images", "statement": "compute_singlet_displacement lists, once per (hole, neighbour electron, next electron of opposite spin) triple, the pair (shifted, exchanged) determinants, in the colinear list iff the triple is straight; all images are in the basis.", "quantifier": "for all lattices, determinants, set orders", "why_tests_cant": "All determinants.", "anchors": ["interactions.py:compute_singlet_displacement"]}
{"id": "C27", "title": "Hole repulsion counts unordered pairs once", "statement": "compute_hole_repulsion(det) = VNN * #{unordered adjacent hole pairs} + VNNNper * #{unordered diagonal hole pairs}, independently of set iteration order.", "quantifier": "for all lattices, determinants, couplings, set orders", "why_tests_cant": "The loop pairs each hole with later ones of a set order that tests cannot vary.", "anchors": ["interactions.py:compute_hole_repulsion"]}
{"id": "C28", "title": "Hamiltonian assembly stays inside the sector", "statement": "build_hamiltonian never raises and every matrix entry it writes has row and column in [0, nb_conf), so holes and Sz are conserved and the sparse constructor accepts the data.", "quantifier": "for all row-major lattices, fillings, couplings, switches, set orders", "why_tests_cant": "All determinants of all sectors.", "anchors": ["hamiltonianConstruction.py:build_hamiltonian", "hamiltonianConstruction.py:add_ham_coo", "interactions.py:add_hopping_integral", "interactions.py:add_next_hopping_integral", "interactions.py:add_static_spin_interaction", "interactions.py:add_spin_flip", "interactions.py:add_singlet_displacement", "interactions.py:add_hole_repulsion"]}
{"id": "C29", "title": "Hamiltonian matrix elements equal the t-J operator", "statement": "Entry (i,j) of build_hamiltonian equals the matrix element of the extended t-J operator written independently on occupation functions (six terms, each gated by its switch), between determinants i and j.", "quantifier": "for all row-major lattices, fillings, couplings, switches, set orders, i, j", "why_tests_cant": "Functional correctness of an unbounded matrix.", "anchors": ["hamiltonianConstruction.py:build_hamiltonian"]}
{"id": "C30", "title": "Hamiltonian is symmetric", "statement": "H[i,j] = H[j,i] for every choice of switches and couplings.", "quantifier": "for all row-major lattices, fillings, couplings, switches, set orders, i, j", "why_tests_cant": "Davidson and eigh silently assume symmetry; a test checks one matrix.", "anchors": ["hamiltonianConstruction.py:build_hamiltonian", "davidson.py:modified_davidson_algorithm"]}
{"id": "C31", "title": "Hamiltonian respects lattice symmetries", "statement": "On square lattices H[rot i, rot j] = H[i,j] for all four rotations, and on every rectangle for the half turn, where rot is induced by rotate_determinant and get_index_in_basis.", "quantifier": "for all sizes, fillings, couplings, switches, i, j", "why_tests_cant": "Unbounded matrices.", "anchors": ["hamiltonianConstruction.py:build_hamiltonian", "baseConstruction.py:rotate_determinant"]}
{"id": "C32", "title": "Hamiltonian is invariant under global spin reversal", "statement": "The Hamiltonian of the sector (h, nalpha<->nbeta) has the same entries after reindexing by reverse_spins; hence the spectrum of a sector and of its mirror are equal.", "quantifier": "for all row-major lattices, fillings, couplings, switches", "why_tests_cant": "Two unbounded matrices.", "anchors": ["hamiltonianConstruction.py:build_hamiltonian", "baseConstruction.py:reverse_spins", "initialComputations.py:perform_configurations_computations"]}
{"id": "C33", "title": "Spin part annihilates the uniform state", "statement": "With only bz and bij on, every row of H sums to zero (the J terms are exactly S.S - n n/4).", "quantifier": "for all row-major lattices, fillings, couplings", "why_tests_cant": "All rows of unbounded matrices.", "anchors": ["interactions.py:add_static_spin_interaction", "interactions.py:add_spin_flip"]}
{"id": "C34", "title": "Result independent of set order and of the unused restriction argument", "statement": "build_hamiltonian's matrix does not depend on Python set iteration order nor on its sites_restriction argument (only the configuration's restriction matters).", "quantifier": "for all pairs of set orders and all argument values", "why_tests_cant": "Set order is fixed by the interpreter in tests.", "anchors": ["hamiltonianConstruction.py:build_hamiltonian"]}
{"id": "C35", "title": "Hamiltonian is additive over switches and linear in couplings", "statement": "The matrix equals the sum of the matrices obtained with one switch on at a time, is zero with all off, and scales with the couplings.", "quantifier": "for all switches and couplings", "why_tests_cant": "All switch subsets, all couplings.", "anchors": ["hamiltonianConstruction.py:build_hamiltonian"]}
{"id": "C36", "title": "Total spin is conserved", "statement": "H commutes with S^2: applying compute_S2 and the Hamiltonian in either order gives the same vector (at most one hole, or any number when sets iterate in increasing order).", "quantifier": "for all row-major lattices, fillings, couplings, vectors", "why_tests_cant": "Operator identity on unbounded spaces.", "anchors": ["hamiltonianConstruction.py:build_hamiltonian", "interactions.py:compute_S2"]}
{"id": "C37", "title": "compute_S2 is the S^2 operator", "statement": "With at most one hole (or ascending set order) compute_S2(v) = S-S+ v + m(m+1) v with S+- the sums of single-site ladder operators. With two or more holes and CPython's set order it fails: a wrong index is computed (refuted in general; compute_spin_number then answers '-').", "quantifier": "for all configurations, vectors", "why_tests_cant": "Depends on CPython hash-table order for two or more holes on nine or more sites.", "anchors": ["interactions.py:compute_S2", "interactions.py:compute_S_plus_S_minus", "interactions.py:compute_S_plus_S_minus_det"]}
{"id": "C38", "title": "S^2 expectation values are bounded below and exact on polarised states", "statement": "compute_S2_exp_val(v) >= |m|(|m|+1) for every vector of the sector, is symmetric as a quadratic form, and equals N/2(N/2+1) when all electrons have the same spin; zero vectors give 0.", "quantifier": "for all configurations (at most one hole or ascending sets) and vectors", "why_tests_cant": "All vectors.", "anchors": ["interactions.py:compute_S2_exp_val"]}
{"id": "C39", "title": "Sz operators", "statement": "compute_spin_z returns (nalpha-nbeta)/2 and that multiple of the vector; compute_spins_z_two_bodies multiplies each amplitude by the product of the two site spins of its determinant; summing it over all ordered pairs of sites gives m^2.", "quantifier": "for all configurations, vectors, sites", "why_tests_cant": "All vectors.", "anchors": ["interactions.py:compute_spin_z", "interactions.py:compute_spins_z_two_bodies", "interactions.py:compute_spins_z_two_bodies_det"]}
{"id": "C40", "title": "Spin number and multiplicity label", "statement": "If <S^2> = s(s+1) with 2s a natural number then compute_spin_number returns s and compute_spin_multiplicity(s) the standard name of 2s+1 (multiplet above five).", "quantifier": "for all s", "why_tests_cant": "All half-integers.", "anchors": ["interactions.py:compute_spin_number", "interactions.py:compute_spin_multiplicity"]}
{"id": "C41", "title": "Dynamic couplings equal off-diagonal Hamiltonian elements", "statement": "Without spin flips, compute_dynamic_interactions(det) maps exactly the determinants reached from det to the sum of their Hamiltonian couplings, i.e. the row of the Hamiltonian built with the same switches. With bij on it uses J instead of J/2 (refuted in general).", "quantifier": "for all lattices, determinants, couplings, switches, set orders", "why_tests_cant": "All determinants.", "anchors": ["interactions.py:compute_dynamic_interactions"]}
{"id": "C42", "title": "Occupation probabilities are probabilities", "statement": "For a non-zero vector, on each site the hole, down and up probabilities are in [0,1] and sum to one; over the lattice they sum to h, nbeta, nalpha; reverse_spins=True exchanges up and down; other spin values raise ValueError.", "quantifier": "for all configurations and non-zero vectors", "why_tests_cant": "All vectors.", "anchors": ["baseConstruction.py:get_probability_spin_lattice", "baseConstruction.py:get_spins_probabilitites_lattice"]}
{"id": "C43", "title": "Rectangular probability map", "statement": "get_probability_spin_rectangular_lattice puts the probability of site (x,y) at row H-1-y, column x for unit vectors. For other vectors the norm is divided out twice (refuted in general).", "quantifier": "for all row-major lattices and vectors", "why_tests_cant": "All vectors.", "anchors": ["baseConstruction.py:get_probability_spin_rectangular_lattice"]}
{"id": "C44", "title": "Dominant determinants", "statement": "With pairwise distinct magnitudes get_dominant_determinants returns the ndet determinants of largest magnitude, in decreasing order, with their coefficients. With ties it repeats a determinant and omits another (refuted in general): each of the ndet places of largest magnitude is replaced by the first place of the same magnitude.", "quantifier": "for all vectors and ndet", "why_tests_cant": "Ties are data dependent.", "anchors": ["baseConstruction.py:get_dominant_determinants"]}
{"id": "C45", "title": "Most dominant determinants with ties", "statement": "initialComputations.get_most_dominant_determinants returns min(nb, len) distinct indices whose magnitudes are the largest ones, with the vector's values, and terminates.", "quantifier": "for all vectors and counts", "why_tests_cant": "All tie patterns.", "anchors": ["initialComputations.py:get_most_dominant_determinants"]}
{"id": "C46", "title": "Lowest eigenpairs selection", "statement": "get_lowests_eig returns min(nb, len) values which are the smallest of the input with multiplicity in increasing order, and for every position the returned column is the input column carrying that value, no column used twice.", "quantifier": "for all eigenvalue lists (with repetitions) and counts", "why_tests_cant": "All tie patterns.", "anchors": ["davidson.py:get_lowests_eig"]}
{"id": "C47", "title": "Converged Davidson pairs have small residual", "statement": "When modified_davidson_algorithm stops before exhausting its iteration budget, every returned pair (x, lambda) satisfies ||A x - lambda x|| <= tol in exact arithmetic; it performs at most stp iterations; with stp = 0 it fails with an unbound variable.", "quantifier": "for all matrices, guesses, tolerances and all outputs of eigh/qr", "why_tests_cant": "The iteration depends on external eigensolvers.", "anchors": ["davidson.py:modified_davidson_algorithm"]}
{"id": "C48", "title": "Davidson search space size", "statement": "When dim_max <= dim the search space never has more than 2*nb_val columns. The documented limit dim_max on the search space is not respected, because the number of rows is compared instead of the number of columns (refuted in general).", "quantifier": "for all sizes and schedules", "why_tests_cant": "Schedules of restarts.", "anchors": ["davidson.py:modified_davidson_algorithm"]}
{"id": "C49", "title": "Deflating Davidson keeps values and vectors aligned", "statement": "In modified_davidson_algorithm_opt each appended eigenvalue should have its vector in the matching column of the result. When two vectors converge in one iteration the second overwrites the first and the exchange of columns loses a vector (refuted). An iteration in which no pair converges replaces the search space by the orthonormalised old space, or its lowest vectors, completed by the meaningful corrections, and changes nothing else.", "quantifier": "for all convergence schedules", "why_tests_cant": "Needs two simultaneous convergences.", "anchors": ["davidson.py:modified_davidson_algorithm_opt"]}
{"id": "C50", "title": "Only new corrections are returned", "statement": "get_meaningful_corrections should return the new orthonormalised directions only; when no correction is meaningful it returns the whole search space instead of nothing, so the caller's restart branch is unreachable (refuted).", "quantifier": "for all correction norms", "why_tests_cant": "Data-dependent branch.", "anchors": ["davidson.py:get_meaningful_corrections", "davidson.py:modified_davidson_algorithm_opt"]}
{"id": "C51", "title": "Single-vector Davidson can accept a spurious value", "statement": "With nb_val = 1 the guess is not normalised, so a guess of small norm is reported as converged with an eigenvalue far from the spectrum (refuted: a converged value is within tol of the spectrum). For nb_val >= 2 the columns come from qr and the claim holds.", "quantifier": "for all matrices and guesses", "why_tests_cant": "Needs adversarial guesses.", "anchors": ["davidson.py:modified_davidson_algorithm"]}
{"id": "C52", "title": "Result file names identify the run", "statement": "For at most ten sites two different (nsites, nalpha, nbeta) give different result names; for every size the five switches bSD, bV, bij, bt, btN are recoverable from the name, and bz too when the other five are on. From eleven sites names collide, and bz is not recorded otherwise (refuted in general).", "quantifier": "for all counts and switches", "why_tests_cant": "Collisions appear only for particular sizes.", "anchors": ["initialComputations.py:save_data", "initialComputations.py:load_data", "initialComputations.py:perform_configurations_computations"]}
{"id": "C53", "title": "Saved results reload unchanged", "statement": "recover_results(save) returns the same eigenvalues, vectors, couplings, switches and lattice sizes. The lattice type is reset to 'periodic' and the site restriction comes back as a list of lists on which get_neighbors raises TypeError (refuted in general).", "quantifier": "for all results", "why_tests_cant": "All stored contents.", "anchors": ["initialComputations.py:save_data", "initialComputations.py:recover_results", "initialComputations.py:load_data"]}
{"id": "C54", "title": "Sweeping all sectors leaves one file per sector", "statement": "After perform_configurations_computations on at most ten sites there is exactly one result file for each nalpha in 0..n-h and loading it returns that sector's data; if a sector fails, the files of the sectors before it are complete. With eleven sites and no hole the file of nalpha=1 holds the data of nalpha=11 (refuted in general).", "quantifier": "for all n <= 10, h, switches, numerical libraries of the right shapes", "why_tests_cant": "Depends on overwriting order.", "anchors": ["initialComputations.py:perform_configurations_computations", "initialComputations.py:save_data"]}
{"id": "C55", "title": "Embedding finds the block results it needs", "statement": "The name embedding_neel and embedding_blocks look up equals the name save_data used exactly when all five switches are on; for other selections the lookup fails (refuted in general).", "quantifier": "for all switch selections", "why_tests_cant": "All selections.", "anchors": ["embedding.py:embedding_neel", "embedding.py:embedding_blocks", "initialComputations.py:save_data"]}
{"id": "C56", "title": "Static dressing only shifts the diagonal", "statement": "One embedding_neel step on a block at least two sites wide and high adds to the block Hamiltonian, at each basis index k, the classical interaction of determinant k with the ring occupation, and nothing off the diagonal; symmetry of the matrix is preserved. On a block one site wide straight neighbours in the ring are also counted as diagonal ones (refuted).", "quantifier": "for all lattices, ring states, couplings", "why_tests_cant": "All determinants.", "anchors": ["embedding.py:embedding_neel"]}
{"id": "C57", "title": "Rotated dressing is rotation invariant", "statement": "In embedding_blocks on a square block the sum of the four rotated dressings is invariant under rotation of the basis. A dressing of a determinant outside of the matrix raises ValueError.", "quantifier": "for all square lattices and dressings", "why_tests_cant": "All determinants.", "anchors": ["embedding.py:embedding_blocks", "baseConstruction.py:rotate_determinant"]}
{"id": "C58", "title": "Self-consistent loop stops", "statement": "embedding loops run the diagonalisation at most max_iter times and return a state only if the last change is below the tolerance or (Neel) the budget is exhausted; embedding_blocks returns None when not converged.", "quantifier": "for all sequences of solver outputs", "why_tests_cant": "Solver outputs are arbitrary.", "anchors": ["embedding.py:embedding_neel", "embedding.py:embedding_blocks"]}
{"id": "C59", "title": "Reversed restrictions disable inter-block exchange", "statement": "If every site of the first restriction list is larger than every site of the second, build_bond_list is empty, so spin flip and static terms are zero; if no hole is in the first list, hopping and singlet images are empty. Hence back-coupling from the neighbour block is silently dropped. A coupling above the threshold at a place outside of the matrix raises ValueError, one below it is dropped.", "quantifier": "for all lattices, restrictions, determinants", "why_tests_cant": "All restrictions.", "anchors": ["embedding.py:embedding_blocks", "latticeFunctions.py:build_bond_list", "interactions.py:compute_spin_flip"]}
{"id": "C60", "title": "Displayed determinant matches occupation", "statement": "get_displayable_determinant shows '0', '-' or '+' at position x according to the particle on site x, and distinct basis elements have distinct displays.", "quantifier": "for all determinants", "why_tests_cant": "All determinants.", "anchors": ["baseConstruction.py:get_displayable_determinant"]}
{"id": "C61", "title": "Displayed lattice matches occupation", "statement": "get_displayable_rectangular_lattice prints 2H-1 lines; the symbol at line 2*(H-1-y), column 3*x is the particle of site (x,y); get_displayable_neighbor puts the two pictures side by side.", "quantifier": "for all lattice sizes and determinants", "why_tests_cant": "Unbounded pictures.", "anchors": ["baseConstruction.py:get_displayable_rectangular_lattice", "baseConstruction.py:get_displayable_neighbor"]}
{"id": "C62", "title": "Basis-level display helpers always fail", "statement": "get_displayable_basis raises AttributeError on every non-empty basis (it passes the basis where the configuration is needed), and get_displayable_dominant_determinants on every non-empty vector with ndet >= 1 (refuted: they return displays).", "quantifier": "for all non-empty bases", "why_tests_cant": "No test calls them.", "anchors": ["baseConstruction.py:get_displayable_basis", "baseConstruction.py:get_displayable_dominant_determinants"]}
{"id": "C63", "title": "Spectrum degeneracies", "statement": "save_spectrum's merging loop returns the distinct energies in first-occurrence order with their multiplicities, which sum to the number of eigenvalues.", "quantifier": "for all eigenvalue lists", "why_tests_cant": "All repetition patterns.", "anchors": ["postProcessing.py:save_spectrum"]}
{"id": "C64", "title": "Amplitude repartition", "statement": "The repartition curve value at x is the number of coefficients with magnitude at least x. With no state asked, both plots of amplitudes raise ValueError.", "quantifier": "for all vectors and abscissae", "why_tests_cant": "All vectors.", "anchors": ["postProcessing.py:plot_determinants_amplitude"]}
{"id": "C65", "title": "Embedding switch survives in BoolInteractions", "statement": "The constructor argument bV_embedding should be readable afterwards, as save_hole_probability_lattice reads it; it is never stored, so that function always raises AttributeError (refuted).", "quantifier": "for all constructor arguments", "why_tests_cant": "No test reads it.", "anchors": ["initialComputations.py:BoolInteractions", "postProcessing.py:save_hole_probability_lattice"]}
{"id": "C66", "title": "Classical Gram-Schmidt", "statement": "gramSchmidt orthonormalises every square full-rank matrix, column by column; with fewer columns than rows it raises IndexError (refuted for rectangular input).", "quantifier": "for all matrices", "why_tests_cant": "All matrices.", "anchors": ["davidson.py:gramSchmidt"]}
{"id": "C67", "title": "Single-vector Davidson loop exit", "statement": "davidson_algorithm returns only with a residual norm not above tol; with an iteration budget of zero and an unconverged start it never returns. The value is rounded exactly when the start has not converged.", "quantifier": "for all matrices, guesses, budgets", "why_tests_cant": "Non-termination.", "anchors": ["davidson.py:davidson_algorithm"]}
{"id": "C68", "title": "A run diagonalises the t-J Hamiltonian it was asked for", "statement": "perform_initial_computations on a rectangular lattice returns the basis of the sector, the matrix of the t-J operator selected by the switches, and the requested number of pairs (l, x); either the iteration budget is exhausted or every pair satisfies |l x - H x| <= tol for that operator. It fails only if the diagonalisation or the spin computation fails.", "quantifier": "for all rectangular lattices, fillings, couplings, switches, guesses and numerical libraries meeting the shape contracts", "why_tests_cant": "A run can only be compared with an independent operator on small instances.", "anchors": ["initialComputations.py:perform_initial_computations", "hamiltonianConstruction.py:build_hamiltonian", "davidson.py:modified_davidson_algorithm"]}
{"id": "C69", "title": "Dressing by the neighbouring block", "statement": "One embedding_blocks step with a single neighbour and no dynamic part adds to the block Hamiltonian, at each basis index, the classical interaction of that determinant with the site occupations of the neighbour (the wave of the block itself, spins exchanged when reverse_spins is set), and nothing off the diagonal. With the dynamic part or the rotated copies the dressed matrix stays symmetric.", "quantifier": "for all lattices, fillings, couplings, waves and options", "why_tests_cant": "All determinants and waves.", "anchors": ["embedding.py:embedding_blocks", "baseConstruction.py:get_spins_probabilitites_lattice"]}
{"id": "C70", "title": "The ring mirrors the block", "statement": "After each embedding_neel step the probabilities put on every ring site are those of the only block site bonded to it, with spins up and down exchanged; the block probabilities are the normalised weights of the wave.", "quantifier": "for all rectangular blocks of sides at least 2, all waves", "why_tests_cant": "Unbounded rings.", "anchors": ["embedding.py:embedding_neel"]}
{"id": "C71", "title": "Embedding files", "statement": "embedding_neel and embedding_blocks read the file of the run without embedding (or of the Neel embedding) and write only their own file; what is written reads back as the block Hamiltonian (dressed for blocks, undressed for the ring) with the new eigenstates; on an error or without convergence no file changes, except for a guess, which empties the file and raises TypeError.", "quantifier": "for all directories, runs and options", "why_tests_cant": "All directories and runs.", "anchors": ["embedding.py:embedding_neel", "embedding.py:save_data_embedding_blocks", "embedding.py:embedding_blocks"]}
{"id": "C72", "title": "Displayed ring matches occupation", "statement": "get_displayable_outer_embedding_lattice draws the block in its ring: the character on each drawn site is the particle of that site, block sites at their place and ring sites numbered counter clockwise from below site 0, with no other arrow or 0 anywhere.", "quantifier": "for all block sizes and determinants", "why_tests_cant": "Unbounded pictures.", "anchors": ["baseConstruction.py:get_displayable_outer_embedding_lattice"]}
{"id": "C73", "title": "Plots read the files of the runs", "statement": "generate_plots_configuration reads the file the run was saved in, and the file embedding_blocks wrote with the same flags; after a whole sweep, generate_plots draws one spectrum per sector, each from its own run. A Neel embedding alone is looked for in Embedding_blocks, where embedding_neel never writes (refuted).", "quantifier": "for all lattices, switches, flags and sweeps", "why_tests_cant": "All names, directories and sweeps.", "anchors": ["postProcessing.py:generate_plots_configuration", "postProcessing.py:generate_plots"]}
{"id": "C74", "title": "Phase diagrams are blank", "statement": "save_phase_space calls modified_davidson_algorithm with its arguments shifted by one. With at least two states asked and a partly filled lattice the error is caught at every point: each saved map is zero everywhere. With one state, or an empty or full lattice, it raises TypeError, and so does it when the two numbers of points differ (one more value of V than of t is not modelled). The couplings of each point are those of the point, but the axis of t/J does not show the t/J used.", "quantifier": "for all row-major lattices, fillings, couplings, numbers of points and states", "why_tests_cant": "All grids and lattices; the error is swallowed by an except clause.", "anchors": ["postProcessing.py:save_phase_space"]}
{"id": "C75", "title": "Spectra along t/J", "statement": "plot_spectrum_dependance gathers, at each t/J, the rounded energies of the two models with their multiplicities and degeneracies, J and the hole and singlet couplings being scaled so that |t|/J is the abscissa. The reorganisation of the curves ends, exchanges tails of curves exactly where labels cross, only when going straight on is smoother, and keeps at each abscissa the same points. Each curve gets the look of its first point; a label other than doublet or quartet, or a degeneracy above two, raises KeyError; more states than the dimension never gives a figure. Energies are sorted while labels and degeneracies keep the order of the file.", "quantifier": "for all families of curves, results and grids", "why_tests_cant": "All families of curves; termination of the loop.", "anchors": ["postProcessing.py:plot_spectrum_dependance"]}
{"id": "C76", "title": "Bars of the embedding effect", "statement": "plot_embedding_effect_on_determinants draws the nb_det largest squared amplitudes of the ground state without and with embedding, in decreasing order; it raises KeyError when nb_det exceeds a dimension. Asked for the effect of an embedding alone, generate_plots_configuration draws the min(nb_conf, 30) largest from the two files, twice when both the Neel ring and the blocks are asked for.", "quantifier": "for all results and nb_det", "why_tests_cant": "All vectors, ties included.", "anchors": ["postProcessing.py:plot_embedding_effect_on_determinants", "postProcessing.py:generate_plots_configuration"]}
{"id": "C77", "title": "Sectors of the exchanges of the dynamic embedding", "statement": "In embedding_blocks without reversal the two perturbed blocks have together the numbers of holes, spins down and spins up of the two blocks, each differs by one exchange, and the register of perturbators has an entry for them. With reversed spins and different numbers of ups and downs the perturbed neighbour has wrong numbers (refuted), and the embedding raises ValueError.", "quantifier": "for all configurations and exchanges", "why_tests_cant": "All fillings.", "anchors": ["embedding.py:embedding_blocks"]}
{"id": "C78", "title": "compute_spin_and_multiplicity fails", "statement": "compute_spin_and_multiplicity passes the basis where the configuration is expected: it raises AttributeError as soon as one vector is not zero; on zero vectors it returns zero and singlet.", "quantifier": "for all bases and vectors", "why_tests_cant": "All vectors.", "anchors": ["davidson.py:compute_spin_and_multiplicity"]}
{"id": "C79", "title": "Projection on the orthogonal complement", "statement": "perform_matrix_orthogonal_projection returns the matrix of A between the vectors of an orthonormal basis of the orthogonal complement of the given orthonormal vectors. For symmetric A and eigenvectors its eigenvalues are exactly those of A with an eigenvector orthogonal to the given ones. More vectors than the dimension raise ValueError.", "quantifier": "for all square matrices and orthonormal families, the factor of lin.qr being orthonormal and triangular", "why_tests_cant": "Matrices of any size.", "anchors": ["davidson.py:perform_matrix_orthogonal_projection"]}
{"id": "C80", "title": "Densities and charge", "statement": "save_electron_probability_lattice draws, at the place of each site, the probability of a spin up, of a spin down, and their difference; nothing for a state that was not computed. Over the lattice the three maps add up to the number of ups, the number of downs, and their difference. When only these plots are asked for, one picture is drawn for each state asked for that was computed, in order, and the run goes on without an error.", "quantifier": "for all lattices, bases and normalised vectors", "why_tests_cant": "Unbounded lattices and vectors.", "anchors": ["postProcessing.py:save_electron_probability_lattice"]}
{"id": "C81", "title": "Spin multiplets across the bases", "statement": "With bz and bij switched together, the lowering operator carries the action of the assembled matrix from the basis of a filling to that of the filling with one more spin down, without losing a vector while the ups outnumber the downs. Hence every energy of a basis is an energy of every basis of the same lattice and holes whose spin projection is not larger in absolute value. The same with the spin: a state of energy e on which S^2 is x is found again, with e and x, in each of these bases. The converse fails.", "quantifier": "for all lattices, fillings, couplings, switches with bz = bij, runtimes and eigenvectors", "why_tests_cant": "Relates matrices of unboundedly many sizes; a test diagonalises one filling at a time.", "anchors": ["hamiltonianConstruction.py:build_hamiltonian", "baseConstruction.py:construct_basis", "interactions.py"]}
{"id": "C82", "title": "Initial guesses of main.py", "statement": "The loops of main.py that fill a guess put in column i a single 1, at the row of the i-th listed determinant in the basis, and zeros in the columns left; distinct determinants give orthonormal columns; more determinants than columns raise IndexError; a determinant whose groups are not increasing is put at another row or raises IndexError (refuted). The six guesses of the 16-site lattice are in the basis and no bond joins equal spins; the six guesses of the 18-site lattice are in the basis, none of them is alternating on the lattice declared (nbh = 2, nbv = 1), all of them are on nbh = 1, nbv = 2.", "quantifier": "for all fillings, bases and lists of determinants; for the two lattices of main.py", "why_tests_cant": "All lists of determinants; the bases of main.py have more than a million determinants.", "anchors": ["main.py:447-456", "main.py:478-487", "baseConstruction.py:compute_hash_table"]}
{"id": "C83", "title": "What main.py prints and writes", "statement": "Without the file of the 18-site run the script stops with the error of load_data and writes nothing. When it ends, the isolated energy printed is the embedded one (the results are overwritten before they are read), the lines show the 50 largest amplitudes of the embedded ground state with their lattices of six columns and three rows, and the only file written is the one of the peripheral embedding.", "quantifier": "for all directories, runtimes, linear algebra and random matrices", "why_tests_cant": "The basis has 1969110 determinants.", "anchors": ["main.py:489-564", "embedding.py:embedding_neel"]}
{"id": "C84", "title": "K and L matrices", "statement": "build_K_matrix(dim) is the 4 by dim matrix with ones at (0,0), (1,1), (2,dim-2), (3,dim-1) only and build_L_matrix(dim) the dim by 4 matrix with ones at (0,1) and (dim-1,2) only. A negative dim raises ValueError; K with dim < 2 and L with dim = 0 raise IndexError.", "quantifier": "for all dim", "why_tests_cant": "Matrices of any size, negative indices of numpy included.", "anchors": ["latticeFunctions.py:build_K_matrix", "latticeFunctions.py:build_L_matrix"]}
{"id": "C85", "title": "Second-order dressing by exchanges with one neighbouring block", "statement": "With one neighbouring block and the dynamic part on, embedding_blocks adds to the element between two determinants i, j of the block, besides the static dressing of C69 (on the diagonal), a second-order coupling: for each determinant k of the block and each state p of the two blocks made from k and some determinant of the neighbour by exchanging a hole of the block and a spin of the neighbour one or two bonds away, the sum over the determinants b, b' of the neighbour with (i,b) and (j,b') different of gs(b) gs(b') <p|T|i,b> <p|T|j,b'> / (2 E - E(p)), terms below the threshold left out, where T is the hopping over one and two bonds between any sites of the two blocks and E(p) the diagonal energy of p. Exchanges of two spins and exchanges of a spin of the block with a hole of the neighbour add nothing. A state p reached from several determinants k is counted as many times (refuted: each state once).", "quantifier": "for all blocks, fillings, couplings, ground states, energies, thresholds and set orders, the denominators not being zero and the reversed neighbour having as many ups as downs", "why_tests_cant": "The dressing is a sum over all pairs of determinants of the two blocks and all exchanges across the border; tests see one block size, one ground state and one order of the sets.", "anchors": ["embedding.py:528-719", "interactions.py:compute_dynamic_interactions", "embedding.py:embedding_blocks"]}
{"id": "C86", "title": "Second-order dressing on the four sides of a square", "statement": "On square blocks, without neighbor_embedding, the matrix built by embedding_blocks with its dynamic part is the sum over the four quarter turns of the block of the dressing of C85: the element between i and j receives for each turn the static and second-order couplings of the turned determinants i and j with the block on the right.", "quantifier": "for all square blocks, fillings, couplings, ground states, energies, thresholds and set orders, the denominators not being zero and the reversed neighbour having as many ups as downs", "why_tests_cant": "Each coupling is written four times at rotated indices; only a proof covers all determinants and all sizes.", "anchors": ["embedding.py:528-719", "baseConstruction.py:rotate_determinant"]}
{"id": "C87", "title": "The lowest Davidson value goes down and stays inside the spectrum", "statement": "Along the iterations of modified_davidson_algorithm on one matrix, the lowest value found never goes up: between iterations i and i+j it rises by at most 2*j*eps, where eps bounds how far the values returned by eigh are from the means of the projected matrix on their vectors. The lowest value returned is at most the mean of the matrix on any unit vector of the first basis, plus (2i+1)*eps where i is the number of iterations before the last one. For a symmetric matrix every returned value is above some level minus eps and below some level plus eps.", "quantifier": "for all square matrices, guesses, numbers of states, tolerances, budgets and restart limits, and for all eigh and qr which along the run give orthonormal bases containing the vectors found before and diagonalise the projected matrices within eps", "why_tests_cant": "The bound holds for every run and depends on external eigensolvers; a test sees one matrix and one numpy.", "anchors": ["davidson.py:modified_davidson_algorithm", "davidson.py:get_lowests_eig"]}
{"id": "C88", "title": "The sign of t is a choice of signs of the basis", "statement": "Replacing t by -t in the couplings multiplies the matrix element between two determinants by (-1) to the number of holes of both on the black squares of the lattice; hence every energy is an energy of the other matrix, its vector having the same amplitudes with these signs. Spin exchanges, hole moves over two bonds, the effective exchanges across two bonds, and the diagonal are unchanged.", "quantifier": "for all row-major lattices, fillings, restrictions, couplings, switches, set orders and eigenvectors", "why_tests_cant": "The equality relates two matrices for every size, filling and coupling; a test compares one pair of spectra within a tolerance.", "anchors": ["hamiltonianConstruction.py:build_hamiltonian", "interactions.py:compute_hopping_integral", "interactions.py:compute_singlet_displacement", "interactions.py:compute_next_hopping_integral"]}
{"id": "C89", "title": "Marshall's signs: off-diagonal elements of the spin part", "statement": "Without holes, or with the hole moves switched off and exchange constants not negative next to holes, and with J not negative: the off-diagonal elements of the matrix are not negative, and after multiplying each determinant by (-1) to the number of its downs on black squares they are all not positive. Hence giving any vector these signs, its sizes being kept, keeps its norm and never raises its energy.", "quantifier": "for all row-major lattices, fillings, restrictions, couplings with J >= 0, switches, set orders and vectors", "why_tests_cant": "The statement holds for all vectors at once and for every lattice; a test can only try some vectors.", "anchors": ["hamiltonianConstruction.py:build_hamiltonian", "interactions.py:compute_spin_flip"]}
{"id": "C90", "title": "Without holes the lowest state is unique and alternates", "statement": "On an unrestricted row-major lattice without holes, with J > 0 and the exchange switch on: if e is the lowest energy (the energy of no vector lies below) then every state of energy e has, after the signs of C89, all its amplitudes positive or all negative, in particular none is zero, and all states of energy e are multiples of one another.", "quantifier": "for all row-major lattices of any size, numbers of downs, couplings with J > 0, other switches, set orders and states of the lowest energy", "why_tests_cant": "Uniqueness of the lowest state is a statement about all vectors and needs the exchanges to connect all determinants, for every size.", "anchors": ["hamiltonianConstruction.py:build_hamiltonian", "interactions.py:compute_spin_flip", "baseConstruction.py:construct_basis"]}
{"id": "C91", "title": "Without holes the lowest state has the smallest spin of its filling", "statement": "On an unrestricted row-major lattice without holes, with J > 0 and both exchange switches on: every state of the lowest energy is turned by compute_S2 into j(j+1) times itself, and compute_S2_exp_val returns j(j+1), where j is half of |nalpha - nbeta|. With as many ups as downs the lowest state is a singlet and the value computed is exactly 0.", "quantifier": "for all row-major lattices of any size, numbers of ups and downs, couplings with J > 0, other switches, set orders and states of the lowest energy", "why_tests_cant": "The spin of the lowest state is proved for every size from its signs; a test diagonalises a few lattices and compares floats.", "anchors": ["interactions.py:compute_S2", "interactions.py:compute_S2_exp_val", "hamiltonianConstruction.py:build_hamiltonian", "interactions.py:compute_spin_flip"]}
{"id": "C92", "title": "Order of the lowest energies of the fillings without holes", "statement": "Under the hypotheses of C91, on one lattice: every energy of a filling whose smaller number of spins (ups or downs) is less than that of another filling lies strictly above the lowest energy of that other filling. The lowest energy therefore grows strictly with |nalpha - nbeta|.", "quantifier": "for all row-major lattices of any size, pairs of fillings without holes, couplings with J > 0, other switches, set orders and energies", "why_tests_cant": "A strict inequality between the spectra of two matrices of unbounded sizes.", "anchors": ["hamiltonianConstruction.py:build_hamiltonian", "baseConstruction.py:construct_basis"]}
{"id": "C93", "title": "Parity of the lowest state under reversal of the spins", "statement": "Without holes, with as many ups as downs, J > 0 and the exchange switch on, reverse_spins_vect returns the lowest state itself when the number of downs is even and its opposite when it is odd.", "quantifier": "for all row-major lattices of any size, couplings with J > 0, other switches, set orders and states of the lowest energy", "why_tests_cant": "The sign of a whole eigenvector under a permutation of the basis, for all sizes.", "anchors": ["baseConstruction.py:reverse_spins_vect", "hamiltonianConstruction.py:build_hamiltonian"]}
{"id": "C94", "title": "Signs recognise the lowest state", "statement": "Under the hypotheses of C89 (J >= 0; no holes, or the moves switched off), a state of energy e all of whose amplitudes have the signs of C89 has the lowest energy: no vector has a smaller mean. On an unrestricted lattice without holes, with J > 0 and the exchange switch on, the converse holds too: a state has the lowest energy exactly when it, or its opposite, has these signs everywhere.", "quantifier": "for all row-major lattices of any size (with restriction for the first part), numbers of spins, couplings and switches as stated, set orders, energies and states", "why_tests_cant": "A bound on the mean over all vectors of any dimension, and an equivalence.", "anchors": ["hamiltonianConstruction.py:build_hamiltonian", "interactions.py:compute_spin_flip", "baseConstruction.py:construct_basis"]}
{"id": "C95", "title": "Without frustration the lowest energy is the same for all spins", "statement": "With J and both exchanges next to holes <= 0, long hops <= 0 and the displacement of singlets switched off, with any number of holes and t of any sign: (a) between different determinants the matrix times the signs is never positive, the signs being those of the holes on black squares if t > 0 and + otherwise; (b) a state of energy e having these signs everywhere has the lowest energy; (c) if moreover both exchange switches agree, then for every other number of downs on the same lattice there is a state of the same energy e with these signs, on which compute_S2 gives j(j+1) with j half of the number of spins, and e is the lowest energy there too. With J > 0 part (b) is false.", "quantifier": "for all row-major lattices of any size, numbers of holes, ups and downs, couplings and switches as stated, set orders, energies and states", "why_tests_cant": "It compares the lowest energies of all sectors of lattices of unbounded size.", "anchors": ["hamiltonianConstruction.py:build_hamiltonian", "interactions.py:compute_S2", "interactions.py:compute_hopping_integral", "interactions.py:compute_spin_flip"]}
{"id": "C96", "title": "Ferromagnetic exchanges: one lowest state, of the largest spin", "statement": "On an unrestricted row-major lattice with any number of holes, without the displacement of singlets, with long hops <= 0, all three exchanges < 0 and switched on and, if there are holes, hops switched on with t different from 0 (of any sign): every state of the lowest energy has, or its opposite has, everywhere the signs of C95, so no amplitude vanishes; all states of the lowest energy are multiples of one another; and, with the static exchange switched on, compute_S2 turns them into j(j+1) times themselves with j half of the number of spins, whatever the number of downs.", "quantifier": "for all row-major lattices of any size, numbers of holes, ups and downs, couplings and switches as stated, set orders and states of the lowest energy", "why_tests_cant": "Uniqueness and the value of the spin for every size and filling; it needs hops and exchanges to connect all determinants.", "anchors": ["hamiltonianConstruction.py:build_hamiltonian", "interactions.py:compute_hopping_integral", "interactions.py:compute_spin_flip", "interactions.py:compute_S2"]}
{"id": "C97", "title": "Motions of the lattice", "statement": "On an unrestricted row-major lattice let f move the sites so that distances along both axes are kept, or the axes are exchanged (the mirrors left-right and up-down of every rectangle, the exchange of rows and columns of every square, the turns, are such motions). Then H between two moved determinants is H between the determinants; every eigenvector moved is an eigenvector of the same value and norm; without holes, with J > 0 and the spin flips on, a state of the lowest energy is unchanged or changes sign, and it changes sign exactly when the number of downs is odd and the corner goes to a black square (for the left-right mirror: even width; up-down: even height; rows and columns exchanged: never); with ferromagnetic exchanges, any number of holes and t > 0 the same holds with the number of holes, and with t < 0 the state is unchanged.", "quantifier": "for all row-major lattices of any size, fillings, couplings and switches (as stated for the parities), motions, set orders and eigenvectors", "why_tests_cant": "Elements and eigenvectors of unbounded matrices under all motions, and the sign of the lowest state for every size and filling.", "anchors": ["hamiltonianConstruction.py:build_hamiltonian", "baseConstruction.py:get_index_in_basis", "interactions.py:compute_hopping_integral", "interactions.py:compute_spin_flip"]}
{"id": "C98", "title": "Range of the energies of the exchanges", "statement": "On a row-major lattice of any size (all sites, or the bonds inside any list of sites) with both parts of the exchanges on, every exchange between 0 and Jm, and either no holes or the hops, displacements and repulsions off, the mean of H on every vector u lies between -Jm B <u,u> and 0, so every eigenvalue lies between -Jm B and 0, where B = h (w - 1) + w (h - 1) is the number of bonds of h rows of w sites. The value 0 is reached in every filling, by the vector of ones. On an unrestricted lattice without holes, with as many downs as black or as white squares, the lowest energy is at most -J B / 2 (for any sign of J).", "quantifier": "for all row-major lattices of any size, restrictions, fillings, couplings and switches as stated, set orders, vectors and eigenvectors", "why_tests_cant": "A bound on all eigenvalues of unbounded matrices; tests compare a few energies of small lattices.", "anchors": ["hamiltonianConstruction.py:build_hamiltonian", "interactions.py:compute_spin_flip", "interactions.py:compute_static_spin_interaction"]}
{"id": "C99", "title": "The values of the Davidson search are above the levels, rank by rank", "statement": "Let A be symmetric with eigenvalues es (with multiplicity), let the bases of modified_davidson_algorithm stay orthonormal and span the vectors found before, and let the projected matrices be diagonalised within eps. Then the returned value of rank k is at least the k-th level of A, minus eps: for every returned value l of rank k (from 0), more than k levels are at most l + eps. Along the iterations the value of every rank rises by at most 2 eps per iteration. No level can therefore be missed from below: the list returned is never shifted downwards.", "quantifier": "for all symmetric matrices of any size, numbers of values, guesses, tolerances, dimensions, iterations and ranks, and numerical routines meeting the stated contracts", "why_tests_cant": "Unbounded matrices and iteration counts; tests compare the values for a few matrices only, where a shifted list of values is not distinguished from slow convergence.", "anchors": ["davidson.py:modified_davidson_algorithm", "davidson.py:get_lowests_eig"]}
{"id": "C100", "title": "Range of the energies of the whole Hamiltonian", "statement": "Whatever the switches, every energy of the Hamiltonian of h holes on a w by v lattice is within 4h|t| + J bonds + 24h|hSD| + 8h|t'| + 4h|V| (each part only when switched on, each coupling replaced by a bound of its variants). With hops and exchanges between 0 and Jm only, the energies are between -(Jm bonds + 4h|t|) and 4h|t|.", "quantifier": "for all row-major lattices, restrictions, fillings, couplings, switches and vectors", "why_tests_cant": "All sizes, couplings and states; tests compute a few energies of 2x2 lattices.", "anchors": ["hamiltonianConstruction.py:build_hamiltonian", "interactions.py:compute_hopping_integral", "interactions.py:compute_singlet_displacement", "interactions.py:compute_hole_repulsion"]}
{"id": "C101", "title": "Sum of the energies", "statement": "On a whole w by v lattice of n sites with h holes, a ups and b downs, where the exchange does not depend on the holes or is switched off, n(n-1) times the sum of the diagonal of the Hamiltonian is the dimension times -J a b bonds plus (VNN bonds + VNNNper diagonals) h(h-1), each part only when switched on; hops, spin flips and crossings do not contribute. The sum of the energies of any complete set of orthogonal eigenvectors is this sum.", "quantifier": "for all row-major lattices, fillings, couplings, switches, and all complete sets of orthogonal eigenvectors", "why_tests_cant": "The sum runs over a number of states that grows exponentially with the lattice; the tests never compute a full spectrum.", "anchors": ["hamiltonianConstruction.py:build_hamiltonian", "interactions.py:compute_static_spin_interaction", "interactions.py:compute_hole_repulsion"]}
{"id": "C102", "title": "Energies follow the couplings", "statement": "On a given lattice, basis and choice of switches: if no coupling differs by more than a given size between two sets of couplings, then no energy moves, rank by rank, by more than the bound of C100 for these sizes, in either direction. The lowest energy at a combination of two sets of couplings with weights that are not negative is at least the same combination of the two lowest energies. Stronger repulsions raise every energy of each rank, or leave it; stronger exchanges, with both of their parts switched on, lower every energy of each rank, or leave it. The smallest level of a complete set of orthogonal eigenvectors is the lowest energy.", "quantifier": "for all row-major lattices and restrictions, fillings, switches, pairs of sets of couplings, and all complete sets of orthogonal eigenvectors of the two matrices", "why_tests_cant": "Compares whole spectra at two arbitrary sets of couplings; the tests fix one set of couplings and never compute a full spectrum.", "anchors": ["hamiltonianConstruction.py:build_hamiltonian", "interactions.py:compute_static_spin_interaction", "interactions.py:compute_hole_repulsion"]}
{"id": "C103", "title": "Hamiltonian on cluster and ring lattices", "statement": "On every lattice drawn in the plane whose angles the program recognises (rectangles, rings with at least two sites on each side, clusters whose numbering the search finds) the assembly never raises, has the dimension of the sector, and is symmetric. Its elements are those of the t-J operator of the drawing when the sites are numbered row by row, when the exchanges do not depend on the holes, or when the spins are not flipped; otherwise the flips take their exchange from the numbers of the sites, and the rows of the exchange need not add up to zero. Two lattices that can be laid on each other, turned or mirrored, with the same numbers of holes and downs have the same matrix up to the relabelling of the determinants and the same energies; so a w by h and an h by w lattice have the same energies for all couplings. The square of the spin is conserved when the elements are those of the t-J operator and both parts of the exchange are on. A run returns the basis, that matrix and the requested number of pairs, each an eigenpair up to the tolerance unless the iterations are exhausted.", "quantifier": "for all drawn lattices, restrictions, fillings, couplings, switches, set orders and vectors", "why_tests_cant": "All lattices and numberings, and whole spectra of pairs of lattices; the tests use one 2x2 lattice numbered row by row.", "anchors": ["hamiltonianConstruction.py:build_hamiltonian", "interactions.py:compute_spin_flip", "latticeFunctions.py:build_bond_matrix_block_embedding", "latticeFunctions.py:build_bond_matrix_neel_embedding"]}
{"id": "C104", "title": "All energies, real amplitudes", "statement": "The matrix of every drawn lattice has as many orthonormal real eigenvectors as determinants; their energies, by increasing order, are the same for every choice of the eigenvectors, and every energy is one of them. A rational pair is an eigenpair of the model exactly when it is one over the real numbers. There is one ground energy; the rational numbers below all mean values are those not above it, and no real vector has a smaller mean value. On whole rectangular lattices the energies add up to the sum of C101.", "quantifier": "for all drawn lattices, restrictions, fillings, couplings, switches, set orders and real vectors", "why_tests_cant": "Existence of a complete set of states and uniqueness of the energies for matrices of any size; most energies are irrational, so no test can compare them exactly.", "anchors": ["hamiltonianConstruction.py:build_hamiltonian", "davidson.py:modified_davidson_algorithm"]}
{"id": "C105", "title": "Range and comparison of all real energies", "statement": "Every real energy lies within the bound of C100; with exchanges only it lies between -J per bond and 0, with hops and exchanges within the signed bounds; the ground energy of a lattice without holes and with equally many ups and downs (up to one) is at most that of the Neel state. If no coupling differs by more than given sizes, the energy of each rank moves by at most the bound for these sizes. The ground energy is concave in the couplings. Stronger repulsions raise the energy of each rank or leave it, stronger exchanges lower it or leave it.", "quantifier": "for all row-major lattices, restrictions, fillings, switches, couplings and ranks; nothing is assumed on the spectrum", "why_tests_cant": "Whole spectra with irrational energies at arbitrary pairs of sets of couplings; the tests never compute a full spectrum.", "anchors": ["hamiltonianConstruction.py:build_hamiltonian", "interactions.py:compute_static_spin_interaction", "interactions.py:compute_hole_repulsion", "interactions.py:compute_hopping_integral"]}
{"id": "C106", "title": "The ground state exists, is unique and has known signs", "statement": "Without holes, with an antiferromagnetic exchange and the spin flips switched on, the matrix of a whole rectangular lattice has exactly one ground state up to a factor; its amplitude on every determinant is nonzero with Marshall's sign, and every eigenvector with these signs has the ground energy. The same with ferromagnetic exchanges, no displacement of singlets and, when there are holes, a nonzero hop, with the sign of the hole's sublattice when the hop is positive.", "quantifier": "for all whole row-major lattices, fillings and couplings in these classes; the ground state and its energy may be irrational", "why_tests_cant": "A Perron-Frobenius statement on matrices of any size; the tests look at one small lattice with floats.", "anchors": ["hamiltonianConstruction.py:build_hamiltonian", "interactions.py:compute_spin_flip", "interactions.py:compute_hopping_integral"]}
{"id": "C107", "title": "Values of the Davidson run against the exact energies", "statement": "When the run converges, each value is within the tolerance of an exact energy of the Hamiltonian, relative to the length of the returned vector; with orthonormalised guesses and unit eigenvectors within the tolerance itself. Vectors on which the mean values do not exceed x show that the energy of their rank does not exceed x. With diagonalisations accurate to eps, the value of rank k is at least the exact energy of rank k minus eps, at any iteration.", "quantifier": "for all drawn lattices, fillings, couplings, guesses, tolerances, numbers of values and oracles meeting the contracts; no exact spectrum over the rationals is assumed", "why_tests_cant": "Compares floats with irrational energies that no test can compute exactly, for every oracle.", "anchors": ["davidson.py:modified_davidson_algorithm", "hamiltonianConstruction.py:build_hamiltonian"]}
{"id": "C108", "title": "Spin of the exact ground state", "statement": "The columns that compute_S2 gives for unit vectors form a symmetric matrix whose product with any vector is what compute_S2 returns. Without holes, with an antiferromagnetic exchange and both of its parts on, the ground state of a whole rectangular lattice is an eigenvector of this matrix with j(j+1), where j is half the difference of the numbers of ups and downs, even when its amplitudes are irrational.", "quantifier": "for all whole row-major lattices without holes, fillings, exchanges, set orders", "why_tests_cant": "The exact ground state is irrational in general, so no computed vector has exactly this property.", "anchors": ["interactions.py:compute_S2", "hamiltonianConstruction.py:build_hamiltonian"]}
{"id": "C109", "title": "Exact energies in sectors of different spin projection", "statement": "On a whole rectangular lattice, with the same holes and with both parts of the exchange on or off together: a sector nearer to equal numbers of ups and downs has at least as many determinants, contains every real energy of a sector further away together with its spin, and its k-th energy is at most the k-th energy of the other. The mean of S squared in any real state lies between m(m+1) and j(j+1), where m is half the difference and j half the sum of the numbers of ups and downs. Without holes and with an antiferromagnetic exchange the lowest energy of the nearer sector is strictly below every energy of the other. With ferromagnetic exchanges and connected hops the lowest energy is the same in all sectors, and every ground state has the largest spin.", "quantifier": "for all whole row-major lattices, holes, pairs of fillings, couplings of the stated signs, switches, set orders, real states", "why_tests_cant": "Energies are irrational in general and every size and pair of sectors is meant; a run compares a few rounded numbers.", "anchors": ["hamiltonianConstruction.py:build_hamiltonian", "interactions.py:compute_spin_flip", "interactions.py:compute_static_spin_interaction", "interactions.py:compute_S2"]}
{"id": "C110", "title": "Exact spectra and ground states under the symmetries", "statement": "Whatever eigenvectors are chosen, the complete real spectrum with its orthonormal states is carried: between two lattices whose drawings can be laid on each other, by moving the determinants; from t to -t, by the sign of the sublattices of the holes; from a filling to the one with ups and downs exchanged, by reversing all spins. The exact ground state without holes and with an antiferromagnetic exchange is multiplied by -1 under a mirror or rotation exactly when the number of downs is odd and the sublattices are exchanged, and under the reversal of all spins, with equally many ups and downs, exactly when the number of downs is odd; with ferromagnetic exchanges and positive hops the number of holes decides, with negative hops the ground state is unchanged.", "quantifier": "for all drawn lattices (figures), all row-major lattices and restrictions (hops), all whole row-major lattices (the others), all fillings, couplings, switches and set orders; energies and amplitudes may be irrational", "why_tests_cant": "Compares complete irrational spectra of matrices of any size; a run compares a few rounded eigenvalues of one pair.", "anchors": ["hamiltonianConstruction.py:build_hamiltonian", "interactions.py:compute_hopping_integral", "interactions.py:compute_spin_flip", "latticeFunctions.py:build_rectangular_bond_matrix"]}
{"id": "C111", "title": "Rounding errors of the Hamiltonian and of its levels", "statement": "When every product, sum and quotient is rounded (each result within a relative error u of the exact one, as in IEEE 754 with p bits rounded to nearest, where u is 1/2^p), and entries at one place are added in any order, the construction of the Hamiltonian still succeeds and each element is within ((1+u)^n - 1) times the size of the t-J element (the sum of the sizes of its terms) of the exact t-J element, n depending only on the number of bonds and holes. The same for the mean value of a wave function and for the energy of a determinant. The matrix is symmetric up to twice that error. Each eigenvalue of the rounded matrix, and the k-th eigenvalue of the symmetric matrix that numpy reads from its lower triangle, is within that factor times a bound of the energies of an exact energy, respectively of the k-th one. A converged value of the Davidson run on the rounded matrix is within the tolerance plus that error of an exact energy, and the value of rank k is not below the exact k-th energy by more than that error (and the accuracy of eigh). Without rounding the same matrix is obtained as by the exact code.", "quantifier": "for all row-major lattices and restrictions, all fillings, couplings, switches, set orders, all roundings with relative error u, all orders of additions; all numbers of bits p >= 2 for the binary rounding", "why_tests_cant": "A run shows one rounded matrix, with nothing exact to compare with; the bound is for every size, every coupling and every rounding.", "anchors": ["interactions.py:compute_static_spin_interaction", "interactions.py:compute_hole_repulsion", "interactions.py:compute_energy", "hamiltonianConstruction.py:build_hamiltonian", "hamiltonianConstruction.py:add_ham_coo", "davidson.py:modified_davidson_algorithm"]}
{"id": "C112", "title": "Rounding errors of the spin of a vector", "statement": "When every product, sum and quotient of the spin operators is rounded (relative error u each, additions in any order), compute_S2 still succeeds and each component is within ((1+u)^(2+n(n-1)/2) - 1) times the component of the operator S^2 applied to the magnitudes of the vector, n the number of sites. The computed mean value of S^2, divided by the square of a norm of relative error d, is within an explicit factor times the largest value j(j+1) of the exact one. If the vector has spin s and this error plus that of the root found by numpy is below (s+1)/4, and the root taken is not negative, compute_spin_number returns exactly s. For a singlet the computed mean value can be negative although the vector is an exact singlet of floats; the roots are then both negative and the spin returned is -1, which has no name. Without rounding the result is that of the exact code; with rounding it fails exactly when the exact code does, and a failure by IndexError is reported as no spin.", "quantifier": "for all configurations without restriction, all vectors, all roundings with relative error u, all orders of additions, all norms and roots with the stated errors, all set orders that list holes in order", "why_tests_cant": "A run shows one rounded value; that it cannot change the spin is a statement on all vectors and sizes, and the negative value of a singlet needs amplitudes that a test would not try.", "anchors": ["interactions.py:compute_S_plus_S_minus", "interactions.py:compute_S2", "interactions.py:compute_S2_exp_val", "interactions.py:compute_spin_number"]}
{"id": "C113", "title": "Rounding errors of the probabilities", "statement": "When every product, sum and quotient of get_probability_spin_lattice is rounded (relative error u each) and the norm of numpy has relative error d in its square, the call still succeeds for a non-zero vector and each probability is within an explicit factor times the exact one, which is the weight of the spin at the site over the weight of the vector. The three probabilities of a site add up to 1 within that factor, an impossible spin gets exactly 0, and none is negative. The map of a rectangle, which divides twice, has the factor applied twice. Without rounding the result is that of the exact code. That the three probabilities never add up to more than 1 is false: two amplitudes 0.9 give more. A zero norm, a wrong spin and a lattice that is not periodic raise as in the exact code.", "quantifier": "for all configurations and bases that list determinants, all vectors, all roundings with relative error u, all norms of relative error d", "why_tests_cant": "A run shows one rounded value; a bound for every size of basis and every vector needs induction over the loop.", "anchors": ["baseConstruction.py:get_probability_spin_lattice", "baseConstruction.py:get_spins_probabilitites_lattice", "baseConstruction.py:get_probability_spin_rectangular_lattice"]}
{"id": "C114", "title": "The rounded Hamiltonian is exactly symmetric", "statement": "Whatever the rounding of the float operations, the matrix built by build_hamiltonian is exactly symmetric: the two elements at mirrored places are the same float, although each may be the rounded sum of several terms added in the order in which the loops reach them. Hence the eigensolver, which reads one triangle only, reads the whole matrix. The elements off the diagonal do not depend on the order in which Python iterates over its sets. The diagonal does: it is false that it is the same for two orders of the sets, and false that the rounded Hamiltonian is invariant under the half turn of a rectangle (a chain of five sites with one hole).", "quantifier": "for all rectangles and coupled fillings, all couplings, all switches, all rounding functions, all orders of summation of duplicates that are a function of the list of terms, all set iteration orders", "why_tests_cant": "Equality of two rounded sums on every lattice, for every coupling value and every set order, cannot be enumerated; a test with friendly couplings never rounds.", "anchors": ["hamiltonianConstruction.py:build_hamiltonian", "hamiltonianConstruction.py:add_ham_coo", "interactions.py:add_hopping_integral", "interactions.py:add_next_hopping_integral", "interactions.py:add_spin_flip", "interactions.py:add_singlet_displacement", "interactions.py:add_hole_repulsion"]}
{"id": "C115", "title": "Lattice motions and spin reversal of the rounded Hamiltonian", "statement": "Whatever the rounding of the float operations, an element off the diagonal of the matrix built by build_hamiltonian is the same float as the element between the two determinants moved by a motion of the lattice (a reflection or a turn), in particular by rotate_determinant on a square and by its half turn on a rectangle. The matrix of the basis with all spins reversed holds the same floats at the reversed places, the diagonal included. The diagonal element of a determinant is the float that compute_energy returns for it. Under motions the diagonal is left out, because there the claim is false (C114).", "quantifier": "for all rectangles (squares for the quarter turns) and coupled fillings, all couplings, all switches (static spin and repulsion on for the energy), all motions, all rounding functions, all orders of summation of duplicates that are a function of the list of terms, all set iteration orders", "why_tests_cant": "test_assert_rotation_invariant compares the diagonal of one 3x3 square after rounding to five digits; exact equality of rounded sums for every lattice, coupling and motion cannot be enumerated.", "anchors": ["hamiltonianConstruction.py:build_hamiltonian", "baseConstruction.py:rotate_determinant", "baseConstruction.py:reverse_spins_basis", "interactions.py:compute_static_spin_interaction", "interactions.py:compute_hole_repulsion", "interactions.py:compute_energy"]}
{"id": "C116", "title": "The rotation test of the Hamiltonian passes for every order of the sets", "statement": "With rounded operations a motion of the lattice, or another iteration order of the sets, changes a diagonal element of the Hamiltonian by at most twice the rounding bound, (1+u)^k - 1 times the bound of the energies. Hence the assertion of test_assert_rotation_invariant (the diagonal elements of a determinant and of its rotations agree to five decimals) holds on every square on which eight times the rounding bound is below 1e-5; this includes the 3x3 square with one hole, four downs and the couplings of the test, with the floats of Python, for every iteration order of the sets and every order of the additions.", "quantifier": "for all rectangles (squares for the test) and fillings, all couplings within given sizes, all switches, all roundings of relative error u, all motions, all numbers of turns, all set iteration orders", "why_tests_cant": "The test itself is the object: it runs with one iteration order, one lattice and one choice of couplings.", "anchors": ["tests/test_hamiltonian_construction.py:test_assert_rotation_invariant", "hamiltonianConstruction.py:build_hamiltonian", "baseConstruction.py:rotate_determinant", "interactions.py:compute_static_spin_interaction"]}
{"id": "C117", "title": "Couplings on a grid of powers of two are never rounded", "statement": "If all couplings are multiples of a power of two 2^e (those of the exchanges, which the code halves, of 2^(e+1)) and the bound of the energies plus the largest exchange is below 2^(p+e), then floats of p bits make no rounding error anywhere in build_hamiltonian: the matrix equals the exact one. Hence it does not depend on the iteration order of the sets or on the order of the additions, and it is exactly invariant under the rotations of a square, the diagonal included (which is false for general couplings, C114).", "quantifier": "for all rectangles (squares for the rotations) and fillings, all couplings on the grid within given sizes, all switches, all precisions p >= 2, all exponents, all set iteration orders and orders of additions", "why_tests_cant": "Tests that use couplings such as 1, 0.5 or 0.25 never round and cannot see the order of the sums; the condition under which this holds is a statement about all partial sums on all lattices.", "anchors": ["hamiltonianConstruction.py:build_hamiltonian", "interactions.py:compute_static_spin_interaction", "interactions.py:compute_hole_repulsion", "interactions.py:add_spin_flip", "baseConstruction.py:rotate_determinant"]}
{"id": "C118", "title": "With one exchange coupling the rounded Hamiltonian is kept exactly by the symmetries", "statement": "If the exchange of the doped bonds equals that of the others (Jhpar = Jhper = J), then the Hamiltonian built with rounded operations does not depend on the iteration order of the sets and is kept exactly, the diagonal included, by every motion of the lattice, by the rotations of a square and by the half turn of a rectangle. The other couplings are arbitrary, and the rounding is any function that keeps zero and the numbers already rounded; rounding to p bits is one. Without the condition on the couplings this is false (C114).", "quantifier": "for all rectangles (squares for the quarter turns) and fillings, all couplings with Jhpar = Jhper = J, all switches, all motions, all set iteration orders, all roundings with these two properties and all orders of additions", "why_tests_cant": "A test compares floats with a tolerance on a few lattices; that the order of the sum cannot matter follows from the fact that all terms are the same float, on every lattice.", "anchors": ["hamiltonianConstruction.py:build_hamiltonian", "interactions.py:compute_static_spin_interaction", "interactions.py:compute_hole_repulsion", "baseConstruction.py:rotate_determinant"]}
{"id": "C119", "title": "Changing the unit of energy by a power of two changes nothing else", "statement": "The float nearest to a number (ties to even) is unique, and rounding commutes with multiplication by plus or minus a power of two. Hence the Hamiltonian built with rounded operations from couplings multiplied by 2^e is exactly 2^e times the other one, and the one built from couplings of opposite sign is exactly the opposite matrix. For other factors this is false, even if all couplings are floats before and after (C119_triple_refuted, factor 3).", "quantifier": "for all rectangles and fillings, all couplings, all switches, all precisions p >= 2 and exponents e, all set iteration orders and all orders of additions fixed by the places of the entries", "why_tests_cant": "Exactness of floating-point results for all couplings is a statement about the rounding of every partial sum; tests sample a few couplings.", "anchors": ["hamiltonianConstruction.py:build_hamiltonian", "interactions.py:compute_static_spin_interaction", "interactions.py:compute_hole_repulsion", "interactions.py:add_spin_flip"]}
{"id": "C120", "title": "Rounded diagonal energies are monotone in the couplings", "statement": "Rounding to p bits is monotone. Hence, with rounded operations, lowering the exchanges and raising the repulsions never lowers an element on the diagonal of the Hamiltonian, however large the rounding errors are; the static interaction with exchanges >= 0 is never positive and the repulsion with V >= 0 is never negative.", "quantifier": "for all rectangles and fillings, all determinants, all pairs of couplings ordered in this way, all switches, all monotone roundings (all precisions p >= 2), all set iteration orders (the same for both) and all orders of additions; the statements on single determinants for all configurations", "why_tests_cant": "Error bounds alone (C111) do not exclude that two nearby couplings give energies in the wrong order; only the monotonicity of every rounded step does.", "anchors": ["interactions.py:compute_static_spin_interaction", "interactions.py:compute_hole_repulsion", "hamiltonianConstruction.py:build_hamiltonian"]}
{"id": "C121", "title": "The sign of the eigenvector does not change the rounded spin and probabilities", "statement": "Eigenvectors come from the solver with an arbitrary sign. With rounded operations the S^2 image of -v is exactly minus that of v, and the mean value of S^2, the spin number and the probabilities of all sites are exactly the same for v and -v; the same holds for v multiplied by a power of two. Also the cases where the code fails are the same.", "quantifier": "for all configurations, vectors, precisions p >= 2, exponents, set iteration orders and orders of additions fixed by the places of the entries, and all norms that scale with the vector; C121_spin_operator, C121_spin and C121_probabilities for all factors that commute with the rounding", "why_tests_cant": "The sign returned by the solver depends on the machine and the library; a test sees one sign, and equality of floats after hundreds of rounded operations is a statement about all of them.", "anchors": ["interactions.py:compute_S2", "interactions.py:compute_S2_exp_val", "interactions.py:compute_spin_number", "baseConstruction.py:get_probability_spin_lattice", "baseConstruction.py:get_spins_probabilitites_lattice"]}
