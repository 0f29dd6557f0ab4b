{
 "C02": "Finding: Parse takes key.substr(tpos1+1, tpos1) as the type name, so a typed entry is readable only if the key is as long as its type name; proved as an exact characterisation, full statement refuted.",
 "C04": "Finding: a line of 2048 or more characters makes Parse loop forever; exact characterisation proved, full statement refuted.",
 "C05": "Finding: strings of two or more blanks are returned unchanged; exact characterisation proved, full statement refuted.",
 "C08": "Finding: text that is not a number is reported as success and leaves the target unchanged; exact characterisation proved, full statement refuted.",
 "C10": "Finding: the request is compared with the limit before it is rounded up to whole blocks; once the limit is exceeded the remaining space wraps around and every request is granted. Proved when the limit is a multiple of the block size, full statement refuted.",
 "C11": "Finding: in the release build (NDEBUG) a second free puts the block on the free list twice and it is handed out twice; the debug build is proved safe, full statement refuted.",
 "C14": "Finding: reading an option that was not given inserts it, so it is afterwards reported as given; exact characterisation of presence proved, values and the check for missing options proved stable; full statement refuted.",
 "C58": "Finding: the buffer form indexes argv by the number of distinct options instead of optind; string form proved, buffer form proved under the condition that makes both agree, full statement refuted.",
 "C16": "Finding: switching back to a dimension whose information is cached keeps the stripe count of the dimension active before, so stripes are skipped or run past the end; each single switch on a fresh view proved (and any sequence over a cube), full statement refuted.",
 "C19": "Finding: for an odd number of bins the middle bin is labelled i-N instead of i; proved for even N and for all other bins, full statement refuted.",
 "C20": "Also proved: with fewer than order points the code always leaves the vector (no check in the code).",
 "C21": "Finding: HOFD::Diff over all dimensions wraps around the left edge without periodic boundaries and reduces indices modulo the size of one dimension; right only for periodic one dimensional grids (proved), full statement refuted. The operator form (OGridHOFD::Apply) is proved for every grid.",
 "C53": "Finding: 'factor = -1/(2 m_i)' assigns the whole vector, so the last mass is used for every dimension; exact behaviour proved, right for equal masses, full statement refuted. Fewer masses than dimensions: read outside the array.",
 "C59": "Finding: with fewer than 16 points along the first dimension nothing is computed (proved for all inputs); on larger grids the last block is left out or the access is before the vector; refuted.",
 "C60": "Literals as decimal rationals, rounding to double not modelled.",
 "C48": "Layers that fit, with a requested side and without overlap, scale each layer point once (C48_layer_partial); C48_code gives the exact result in all fitting cases. Refuted in general: the default thickness 10 is not checked against the grid, map 0 (documented as none) acts on both ends, overlapping layers scale points twice, and a parameter list with dim entries is read behind its end.",
 "C50": "Maximas and the windowed search are exact (C50_maximas, C50_window). The plain search is characterised for thresholds that are not negative (C50_regions_partial); refuted in general: on negative data it reports the index -1, and Minimas reports ascents.",
 "C56": "Holds for blocks that are not empty (C56_write_partial) and for all reads; refuted for empty blocks, where an uninitialised size is read.",
 "C57": "Exact in rational arithmetic (C57_sync_partial); refuted in double precision: a successful synchronisation can show a different time (1.8 vs 3*0.6).",
 "C46": "The 32 bit reader is the same code with w = 32: values come back modulo 2^32.",
 "C47": "The SSE loops for Im disagree with the scalar ones ((0,im) instead of (im,0)), m128dc::imags returns the real part, m256dc::MultImag spoils its upper half and no AVX loop can run; see the refuted theorems.",
 "C54": "PulseEnergy multiplies by scale instead of scale squared and operator= drops the scale factor; exact behaviour proved.",
 "C55": "Grid wave functions satisfy it; WFLevel::Reduce compares signed components and erases every negative one.",
 "C61": "From three time steps on the loop runs out of both arrays (proved); only up to two steps it is safe.",
 "C28": "Init with more than 64 requested states writes outside the table (refuted); with at most 64 the property holds.",
 "C29": "States' products are an arbitrary function; products, norm, MPI distribution, linearity and assignment.",
 "C22": "Partial: a successful read never returns wrong data after any history of calls and exceptions, and is never null unless the entry read is the oldest of a full auto-lock window; memory stays within the limit as long as no call failed. Refuted in full: a null pointer is returned (C22_data_refuted), the limit is exceeded after an exception (C22_memory_refuted) and by multi state wave functions (C22_memory_multistate_refuted), undefined behaviour when the buffer was not initialised or is shrunk to 0.",
 "C23": "Partial: proved for reads of entries outside the window of auto-locked entries; refuted when an entry is read again while it is in the window.",
 "C26": "WFLevel and matrix operators round-trip; laser fields only when not empty and with a positive time step (C26_laser_partial); refuted for an empty field.",
 "C27": "Partial: level and grid wave functions round-trip byte for byte (grid headers given that protocol buffers do); refuted for multi state wave functions, whose stream contains only the number of states.",
 "C62": "Partial: with a complete header the laser reads safely for all inputs; WFLevel and the matrix operator only when the length field is moderate. Refuted: WFLevel allocates after cutting the length to an int but reads the uncut number of bytes.",
 "C30": "Operators are any linear maps with buffers of arbitrary content; expectation values, in place and accumulating forms included.",
 "C31": "Partial: products of at least one operator apply right to left in all forms that give a result; an empty product leaves its target as it was and the accumulating form is refuted.",
 "C33": "Partial: names and positions are consistent as long as names are distinct; the code keeps an entry under a name already in use (refuted for repeated names).",
 "C32": "Apply is proved for every matrix of operators; Init and Copy only for matrices whose unset elements do not matter (refuted in full: Init and Copy leave elements of a hermitian or copied matrix wrong).",
 "C34": "Partial: choosing the time type before a clock is set dereferences a null pointer (C34_code, C34_refuted); for all other histories the exponent is proved.",
 "C35": "Same time step for both steps, exact arithmetic; transformations are any pair inverse to each other up to the norm, exponentials any with exp(c) exp(-c) = 1.",
 "C36": "Holds for every history if operators declared as time independent are time independent.",
 "C37": "The in place form is proved; the copying form applies the step to the destination's old content and stores the result in the source (C37_copy_code, refuted). Also shown: a copy of an RK4 propagator has no Hamiltonian and Init never sets it (C37_life_code).",
 "C38": "Convergence tests are any function of the wave functions compared; exact arithmetic; terms identified with Chebyshev polynomials (C38_chebyshev). Init's coefficients are modelled from the Bessel values on; with a given order and total underflow the step reads beyond the coefficients (C38_underflow_code).",
 "C39": "Projection onto and out of a space: what Apply computes for any orthonormal list, idempotence, what it keeps and removes. The copy of a projector and Init are described as they are (C39_copy_code, C39_init_code); the claim that a copy projects like the original is refuted (C39_copy_refuted).",
 "C40": "C40_partial: under the stated conditions; C40_cases lists all cases; the full statement is refuted by a witness (C40_refuted).",
 "C49": "True for one part (C49_partial). With two or more parts the second loop indexes the slot after the last part: undefined behaviour on every non-empty grid (C49_code, C49_refuted).",
 "C51": "Exact condition under which a copy answers like the original (C51_partial); otherwise null eigenvalues or eigenvectors are read (C51_code, C51_refuted). C51_fresh: energies always belong to the current matrix. LAPACK is an oracle.",
 "C52": "Lanczos recursion for all vectors and diagonal elements for all but the last, and for the last when the loop runs through (C52_partial). On early convergence the last diagonal element stays zero (C52_code, C52_refuted). The error estimate, norm and scalar product are oracles.",
 "C44": "Initialisation at most once and adding without replacing hold for tidy histories (no operator added while registered, given keys not starting with the generated prefix); both are refuted in general (one operator under two keys is initialised twice; a generated key overwrites a given one). Clearing is proved. Labels: proved for max > 0, refuted for max = 0 (writes one element).",
 "C41": "Single definitions without zero coefficient and trees whose linear combinations are normalised load as meant (C41_single, C41_partial). In general a linear combination loads twice its sum (C41_code, C41_refuted), a zero coefficient is ignored (C41_zero_code), an empty combination is null (C41_empty_code).",
 "C63": "Distinct maps, single maps and refusal proved; without a state map the behaviour is undefined for every input (C63_code, C63_refuted).",
 "C43": "Proved for every list read from a section by an object used once, all usable wave functions and all numbers of applications: C43_init, C43_apply, C43_readonly, C43_integrate. Not excluded by the code: rho without states or with a negative one is undefined behaviour (C43_rho_refuted, C43_negative_code), Add never stores its operator (C43_add_code), its default value kind is unknown (C43_default_code), a second Init keeps the states of the first (C43_reinit_refuted).",
 "C42": "Proved for runs from the start (C42_run) and for safety of every accepted parameter but a zero write cycle (C42_params_partial). Restarts end one time step late and are refuted for both readings of the start number (C42_restart_refuted, _code, _wcycle_code); they agree with the whole run when nothing depends on time and every step is written (C42_restart_partial). A zero write cycle is accepted and divides by zero (C42_wcycle_refuted). After a failure the meta file claims all steps (C42_fail_code).",
 "C24": "The stream protocol of WriteWaveFunction/ReadWaveFunction/LoadWaveFunctionByMeta over an abstract header codec and abstract Serialize/DeSerialize. Refuted for multi state wave functions nested in front of other states (a multi state wave function does not mark its own end); proved for all wave functions in which only last states are nested, for reading into a target and for loading, and for sequences. Targets with too few states: undefined behaviour.",
 "C25": "Refuted: raw data ending with a compression tag is inflated, data under 8 bytes refused, and the format detection of ReadFile over-reads when the first 16 bytes hold no zero. Proved: all other data round trips, compressed data round trips whenever it can be written (libz/libbz2 as oracles), sequences with equal parameters round trip.",
 "C45": "Token-level parser, tree execution and an XML reader as the specification. Proved for one block with plain definitions before it and distinct XML attribute names; refuted for reserved characters, concatenations and copies in definitions, redefinitions, several blocks, names that are not XML names, attributes given twice, tabs, texts of 1024 characters and more, and for the direction and the rounding of loops. Undefined behaviour after the first block and for braces too many is stated by the _code theorems.",
 "C64": "Proved for files below 1024 bytes without the texts '/>' and '</' in the simplified format; refuted: the text handed over continues with uninitialised memory, files from 1024 bytes on make the type detection read behind its buffer, a comment with '</' makes a simplified input XML. What the code does is stated exactly by the _code theorems.",
 "C65": "The longest match semantics of the rules and the reading back of written tokens are proved without restriction, and the translation from the text on as far as C45 holds; refuted: empty quoted texts and texts with other characters, characters without a rule (copied to the standard output, otherwise ignored), comments in a last line without line end.",
 "C66": "Refuted as stated. Proved for all environments and all interleavings: commands that work are answered exactly once, sessions of them of any length run to QUIT, and the failures in the list 'fails' are reported once. Violations are proved one by one: a failing LOAD_OP or a SET_GLOBAL_PARAMS without parameters leaves a surplus OK, GET_MATEL deadlocks with a client that waits for the confirmation, a missing operator is used as a null pointer, an unreadable wave function is sent as a null pointer, DELETE_OP, unknown operator classes and malformed parameters end the server without an answer, overlong parameter lines hang it; three responses lack required fields; five MATLAB scripts cannot complete.",
 "C67": "Order, parameters, directory and failures are proved for every document with at least one element and a non-empty directory (C67_order with C67_plan_total/unique). Refuted parts: a collection with only comments reads the name of a NULL node, an empty directory reads in front of a string (C67_comment_refuted, C67_dir_empty_refuted), mistakes on the command line end with status 0 (C67_status_refuted).",
 "C68": "The full statements are refuted: a bra that is given is one write cycle ahead of the ket and its initial operators act at the last time (C68_one_bra_refuted, C68_two_bra_given_refuted, C68_bra_refuted), initial operators of the ket replace the signal operators (C68_one_first_refuted), only the last of several operators between two propagators acts (C68_two_operators_refuted), one value beyond the limit is computed (C68_two_limit_refuted), and a series that was written can not be read (C68_read_refuted, C68_read_names_code). Proved for all inputs: what is computed (C68_one_code, C68_two_code, C68_bra_code), and that it is right without a definition of the bra and with one operator per time (C68_one_partial, C68_two_partial).",
 "C69": "Proved for propagations from the start with a positive write cycle (C69_partial). Refuted for restarted propagations (the number of the first file is not in the meta file, C69_restart_refuted, _code) and for negative write cycles, which the propagation accepts (C69_negative_refuted, _code). The time step, which goes through its text, is left out (see C70).",
 "C70": "Refuted as stated: ostream << writes six significant digits, so 1000001 comes back as 1000000 and 41.341373 as 41.3414 (this reaches dt and the grid limits in every meta file). Proved: reading is correctly rounded for every decimal text; writing gives the closest six-digit decimal; values given with at most six digits survive exactly (1e-307..1e307); every finite double is off by at most 1e-5 relatively with its sign kept; a second passage changes nothing; arrays are elementwise; an empty array comes back as an uninitialised element (UB).",
 "C71": "False as stated: a convergence criterion of 1 is accepted and no step is done, so every file holds the initial wave function (C71_refuted, C71_conv_one_code); the diagonalisation drops the imaginary parts of the matrix elements (C71_diag_refuted). Proved: orthonormality for every other criterion, the path of every state, energies, table, restart, refusals, orthonormality after the diagonalisation for any elements, diagonality for real ones. Norms, convergence distance, propagator, LAPACK are oracles with contracts.",
 "C72": "False as stated: for a propagation read from files the frequencies are computed from dt and steps of the input, not from the files (C72_refuted, exact behaviour C72_files_code). Proved for a propagation that is run, for all propagators, components and peaks (C72_run), and for files whose length is the one of the input (C72_partial); the general form without an assumption on the components is C72_dft. Exact arithmetic, window/transform/peak search as one oracle.",
 "C73": "False as stated. Proved: without the product rule for all mixtures of elements unless the coordinates are uncoupled and an off-diagonal element is a grid function (C73_partial); with the product rule if all elements are grid functions that count (C73_chain_partial); hermiticity (C73_hermitian); refusal of other grids (C73_refused). Refuted with exact behaviour: uncoupled coordinates with off-diagonal grid functions and the product rule with constants use pointers never set (C73_coup_code, C73_chain_code); layers: outer transformation last for constants, inner one missing for grid functions, never refused with the product rule (C73_layers_code, C73_layers_chain_code); another number of dimensions (C73_dims_code); copies cannot be applied (C73_copy_code); Emax is no upper bound for constant off-diagonal elements (C73_emax_refuted, holds for 'fair' elements C73_emax_partial). Derivatives, layers and files are oracles.",
 "C74": "The full statement (every legal sequence of calls is defined and leaks nothing) is false: C74_refuted and ten further witnesses (StrideCopy and StrideRef accept a stride behind the end, sizes not divisible by the strides, downsize, swap of different strides or of references, CopySub backwards or with strides, retiring a master, FastCopy onto itself; assignment to a vector of references and the first reference of an empty vector lose the pointer arrays). C74_partial: every sequence of proper calls (astep defined) runs without undefined behaviour, gives the answers of plain values and frees every block; C74_read_back, C74_apart, C74_shared are the laws of these values; C74_arrays: without references no pointer array is lost. Missing: calls outside astep that happen to work (e.g. references with source strides other than 0, references to vectors already referred to).",
 "C75": "proved for runs of the methods krotov, rabitz and freq with targets that do not move; propagator, coupling, scalar product, gobbler, filters and target operators are oracles, wave function buffers are exact arrays",
 "C76": "refuted: the field calculated on the way back is put into the lasers that are not used (the method is Rabitz without feedback), and operators are applied to the initial states; _code gives the exact behaviour of a whole run",
 "C77": "refuted: the propagation of the guess overwrites the series, the targets are the states under the guess in all iterations; _code theorems",
 "C78": "refuted: the history starts with yields 1, 1, 1, so a first yield of 1 ends the run and a criterion of 1 or more makes no iteration; proved from the third iteration on, exact rule in C75",
 "C79": "Partial: operators on the diagonal or only above it are overlooked, without a label two different operators opposite to each other dereference the missing label, a single operator without the label reports the size of the array as the number found, and more operators than there is room for are written behind the array. C79_partial holds when all that is asked for lies below the diagonals or opposite to such elements; C79_code says exactly what is found in every tree.",
 "C80": "Partial: lasers on the diagonal are left out next to a transition; without labels a non-hermitian coupling, and a Hamiltonian that is a single laser, are undefined behaviour. C80_partial gives the statement for the other trees, C80_code the result in every case.",
 "C81": "Proved for programs which keep the shape of wave functions that were transformed and in which plans are made by wisdom or overwrite only what the transform overwrites (C81_partial); C81_code says what happens in all programs that keep the shapes. Refuted in general: Restore as first transform (planning overwrites the data read), plans of a second dimension after a backward transform, use of freed storage after two assignments of another size, plans of the old shape after an assignment with the same number of points.",
 "C82": "Proved: single-dimension tables of all dimensions, the collective second derivative, OGridNabla's table, kinetic energy bounds for positive masses, which masses are accepted (C82_partial, C82_nabla, C82_energy_partial, C82_mass); C82_code gives all tables the code builds. Refuted: table of a dimension chosen with Dim (missing), mixed tables (one wave number only), collective first derivative (always second), re-initialisation on a larger grid (out of bounds), Emax of OGridNabla (smallest value), its exponential (sign, uninitialised real part), its copy (dimension lost), energy bounds with negative masses.",
 "C83": "Proved down to the storage model of C81: OGridNabla out of and in place except adjoint momentum, DnDxn in all dimensions, DnDxn and DnDxnAdd in one dimension when planning for it cannot overwrite the source. Refuted: adjoint of the momentum operator (sign changes), derivative in a second dimension of a derivative (planning overwrites it), mixed derivatives (first transform lost; a factor i missing for odd order); C83_nabla_code and C83_mixed_code say what is computed.",
 "C84": "Refuted for equal potentials with a negative coupling, where the eigenvectors are exchanged (the coupling acts as its absolute value: C84_sign_code, C84_degenerate_code); proved everywhere else for the real numbers and for ordered fields with exact roots; linearity, norm, group property and reversal hold at every point.",
 "C85": "Refuted for direction changes after Init, for step zero after Init at another step, for two potentials without coupling, for a repeated Init after a failed one and for UpdateTime without coupling; C85_partial and C85_code give the exact behaviour for all histories; opposite propagators undo each other (C85_reverse).",
 "C86": "Refuted for a cut-off at the first grid point (not a number), left passes in absorbing potentials (they wipe out the earlier right passes), cut-offs just outside of the grid (accepted), Emin with two right passes, Expec before Init (uninitialised flag), the exponential of a potential (real instead of imaginary, no absorption in the split operator), Init after a refusal and copies made before Init; the _partial and _code theorems give the exact behaviour.",
 "C87": "Refuted for copies (undefined as soon as the operator has dimensions) and the energy bounds (both zero); everything else holds, the documented parameters k0, k1, .. are not read (C87_none_code). The example C87_law_ex uses the real numbers of the standard library.",
 "C88": "Refuted: after a failed load the operator reads no file any more and Init reports success (C88_retry_code), and a potential from a stream cannot be saved with a meta file (C88_rewrite_code); loading, bounds, hermiticity, fitting and copies hold in general.",
 "C89": "The coupling is scale*(mu+offset) with the scale of the file's parameters once more (C89_coupling_code): false for streams with a scale (C89_coupling_refuted), true otherwise (C89_coupling_partial). Emax bounds the energies only for non-negative fields and dipoles (C89_bounds_refuted, C89_bounds_partial). A second Init keeps the old laser (C89_again_refuted). Copies lose the laser scale and the parameters of pulses (C89_copy_refuted, C89_copy_pulse_code); equal with equal scales (C89_copy_partial). Pulses are as specified whenever their width is not zero; the default width is zero below eight steps (C89_pulse_refuted).",
 "C90": "Init, running, Krylov exactness and the step law hold; projection, diagonalisability, exactness without normalisation, independence of history and copies refuted with witnesses, exact conditions in the partial theorems.",
 "C91": "Loading, exponents, transformation, retry, coupling, setzero of dipoles and bounds are false in general (_refuted, with what the code does in _code and where the claim holds in _partial); size, apply and the zeroed eigenvalue are proved.",
 "C92": "CreateDir is sound for all paths; that every missing path is made is false for dot components (C92_create_refuted, C92_dots_code) and proved for plain ones; StripLast and IsDir are not total (_refuted, _code). Remove, IsFile and undoing are proved.",
 "C93": "Proved: which matrices are refused, linearity; the exponential, weight, addition and reversal for symmetric grid matrices without fields (partial), diagonal matrices with all elements (partial), transformed elements with one normalisation (partial). Refuted: states of different size refused, fields, lower triangle, missing diagonal elements with unity, diagonal matrices with missing elements, couplings beside transformed elements, different normalisations.",
 "C94": "Exact for the default build; refuted with exact descriptions: operators under their class name, the documented search, safety of the name expansion, empty modpath, availability of Jump with dynamic modules.",
 "C95": "Apply, formula, anti-hermiticity, coupling, copies and refusals proved; refuted: file name of one dimension without mass, use before Init, mirrored element in a hermitian matrix, Emax for negative couplings, Emin.",
 "C96": "Fields, refusals and exchange proved; coupling proved up to the factor -1/2 and without file scale; refuted: factor, exponent (-1 instead of -1/2), lower bound of the energy, copies.",
 "C97": "Value proved up to the sign (code gives the inflow), conservation, Init proved; refuted: sign, number of operators after a second Init, use before Init, copies.",
 "C98": "Safety holds for all programs that hold a reference of their own to what they hand over. Without it Set(key, Get(key)) destroys a listed wave function; a generated key can replace a given one and its wave function leaks; the empty key is not found again.",
 "C99": "Table, application and hermiticity are proved for grids with at least two points per dimension. One point gives not-a-number; a refused dimension is accepted by the next Init with a table of zeros; bounds ignore the scale and are undefined without a dimension and in copies.",
 "C100": "Application, matrix elements, bounds, copies and the normalisation are proved. The default of value is 0 instead of 1, and a complex constant calls itself hermitian.",
 "C101": "Application is proved for masses that are not 0, one per dimension. A mass 0 divides by 0, missing masses are undefined behaviour, the conjugate flag does not give the adjoint and is not copied.",
 "C102": "proved: the exact effect of a run on a single file and on a series (C102_single, C102_series, C102_missing, C102_refused), that a run exists and ends, losslessness and the error bound; refuted: the default method, bzip2, level 0, the limit of the tolerance, the exit status and completeness of a series; C102_*_code say what the code does instead",
 "C103": "Proved for all options and runs: the table (titles, values, order), the spectrum of a complete run as windowed forward sum, the single peak of a stationary state, the end of the table at a bad norm. Refuted with exact code theorems: conjugated projection column, one decimal without norm and energy, middle frequency for odd N, uninitialised rest of the buffer after an early end, termination if the file cannot be opened, number of steps in the closing message.",
 "C104": "Proved for all systems and sequences of calls: opening, write and read laws, mapped memory, unmapped Resize, and that nothing is left behind without exceptions and without Resize of mapped files. Refuted with exact code theorems: 4 GiB files, long transfers, failed mappings, size after Resize, unmapping after Resize, files left after exceptions, use of a closed descriptor.",
 "C105": "Texts: refinement for all programs in which indented lines are complete at every flush and nothing waits when debug output or the place is switched (C105_text_partial); without these conditions refuted. Suppression: proved for everything but headers, which are refuted. Headers: proved for titles that leave 4 characters (sections), refuted otherwise.",
 "C106": "Proved for programs whose constructors succeed or fail at the first step (C106_program_partial, C106_end); refuted for constructors that fail later, for the unique name, and for FIFOs removed by others.",
 "C107": "Filters proved for all documents; the other loops for nodes with element children (sums and propagators also without any child), the whole document if every element has no child or an element child; sections if there are children and no instruction has the name; attributes of one part. Refuted without these conditions.",
 "C108": "Shown: all stream files with headers below 2 GiB, in particular all that are written; only stream files with complete headers are shown. Refuted for damaged headers, which are shown with success, undefined or terminate the program. qds2qdi: success means a written translation if a name is given; refuted without a name and for the output after errors.",
 "C109": "Products with matrices that are not square leave memory (C109_product_refuted); proved for square ones, which are all that the operators use, together with all statements about the change of basis.",
 "C110": "Refuted: OGridStokes for weights other than one (sign and unset memory), OGridStokesAlbrecht for states that are not normalised, OGridGStokes after repeated initialisation; each proved otherwise.",
 "C111": "The missing parameters given to EParamProblem never reach the message, its reason follows without separator, system errors outside a short list share one text and doubles are shown with six digits; everything else is shown and told apart.",
 "C112": "The local file replaces the settings of the home directory instead of going before them, read-only files are ignored, and an unset HOME is undefined behaviour; with one file, writable files and HOME set it holds.",
 "C113": "Holds with working locks except for returned values; the code never has working locks: with OpenMP the lock pointer is not set, without it there is none."
}