{"id": "C01", "title": "Parameter files read back what was written", "statement": "Writing a parameter container to a file without type tags and parsing that file gives a container in which every key has exactly the value it had before, and no other key appears, provided keys are non-empty, carry no '=', '[' , '#'-start, newline or surrounding blanks, values carry no newline or surrounding blanks, and each line is shorter than the parser's line buffer.", "quantifier": "every container with well-formed keys/values (any number, any length up to the line buffer)", "why_tests_cant": "The claim ranges over infinitely many inputs; a test samples finitely many and boundary combinations (sizes, whitespace, wrap-around) are exactly what samples miss.", "anchors": ["src/tools/ParamContainer.cpp: ParamContainer::Write, ParamContainer::Parse", "src/tools/helpers.cpp: trim"]}
{"id": "C02", "title": "Typed parameter files read back what was written", "statement": "Writing a container with type tags ('key[type] = value') and parsing the file gives back the same keys, values and types.", "quantifier": "every container whose entries carry a type tag", "why_tests_cant": "The claim ranges over infinitely many inputs; a test samples finitely many and boundary combinations (sizes, whitespace, wrap-around) are exactly what samples miss.", "anchors": ["src/tools/ParamContainer.cpp: Parse (substr of the type tag), Write, String2Type, Type2String"]}
{"id": "C03", "title": "Merging parameter sets", "statement": "After a += b a key has b's value if b defines it, otherwise a's old value, and is absent if neither defines it; the same holds for type tags; b is unchanged and repeated merging of the same set changes nothing more.", "quantifier": "all pairs of containers and all keys", "why_tests_cant": "The claim ranges over infinitely many inputs; a test samples finitely many and boundary combinations (sizes, whitespace, wrap-around) are exactly what samples miss.", "anchors": ["src/tools/ParamContainer.cpp: operator+=, operator=, SetValue, GetValue, isPresent, clear"]}
{"id": "C04", "title": "Parsing a parameter file terminates", "statement": "Parsing any byte stream as a parameter file terminates.", "quantifier": "every finite byte stream", "why_tests_cant": "The claim ranges over infinitely many inputs; a test samples finitely many and boundary combinations (sizes, whitespace, wrap-around) are exactly what samples miss. Non-termination additionally never shows as a failed assertion.", "anchors": ["src/tools/ParamContainer.cpp: Parse"]}
{"id": "C05", "title": "Trimming blanks", "statement": "Trimming a string removes exactly the leading and trailing blanks: the result is the maximal middle part that neither starts nor ends with a blank.", "quantifier": "every string", "why_tests_cant": "The claim ranges over infinitely many inputs; a test samples finitely many and boundary combinations (sizes, whitespace, wrap-around) are exactly what samples miss.", "anchors": ["src/tools/helpers.cpp: trim"]}
{"id": "C06", "title": "Integer arrays survive the parameter container", "statement": "Storing an integer array under a key and reading it back as an integer array returns the same numbers in the same order.", "quantifier": "every non-empty list of 32-bit integers and every key", "why_tests_cant": "The claim ranges over infinitely many inputs; a test samples finitely many and boundary combinations (sizes, whitespace, wrap-around) are exactly what samples miss.", "anchors": ["src/tools/ParamContainer.cpp: SetArray, GetArray", "src/tools/helpers.cpp: split"]}
{"id": "C07", "title": "Scalars survive the parameter container", "statement": "Storing an int or a bool under a key and reading it back with the same type returns that value and reports presence; reading any absent key reports absence and yields zero (or the caller's default for bool).", "quantifier": "every key, every 32-bit integer, every bool, every prior container", "why_tests_cant": "The claim ranges over infinitely many inputs; a test samples finitely many and boundary combinations (sizes, whitespace, wrap-around) are exactly what samples miss.", "anchors": ["src/tools/ParamContainer.cpp: SetValue(int/bool), GetValue(int/bool)"]}
{"id": "C08", "title": "Successful numeric lookup means a number was read", "statement": "If reading a key as an integer reports success, the variable handed in holds the number written in the container under that key.", "quantifier": "every container, key and previous content of the target variable", "why_tests_cant": "The claim ranges over infinitely many inputs; a test samples finitely many and boundary combinations (sizes, whitespace, wrap-around) are exactly what samples miss.", "anchors": ["src/tools/ParamContainer.cpp: GetValue(const string&, int&)"]}
{"id": "C09", "title": "The block allocator never hands out a block that is in use", "statement": "As long as the program frees only blocks it currently holds, no allocation returns a block that is currently held, and the allocator's usage counter equals the total rounded size of held plus cached blocks.", "quantifier": "every history of allocate/free/cleanup calls and every answer of the system allocator", "why_tests_cant": "The claim ranges over every sequence of API calls; tests exercise a handful of histories and cannot exclude a later interleaving that breaks the bookkeeping.", "anchors": ["src/tools/Memory.cpp: Align, Free, Cleanup"]}
{"id": "C10", "title": "The memory limit is respected", "statement": "The total amount of memory the allocator has reserved never exceeds the configured limit.", "quantifier": "every limit and every history of allocate/free/cleanup calls", "why_tests_cant": "The claim ranges over every sequence of API calls; tests exercise a handful of histories and cannot exclude a later interleaving that breaks the bookkeeping.", "anchors": ["src/tools/Memory.cpp: Align, MaxSize"]}
{"id": "C11", "title": "Freeing twice is harmless", "statement": "Even if a program frees a block twice, two later live allocations never share a block.", "quantifier": "every history including repeated frees", "why_tests_cant": "The claim ranges over every sequence of API calls; tests exercise a handful of histories and cannot exclude a later interleaving that breaks the bookkeeping.", "anchors": ["src/tools/Memory.cpp: Free, Align"]}
{"id": "C12", "title": "Memory size strings", "statement": "A size string consisting of decimal digits, an optional K/M/G/T and an optional trailing B is read as the number times the matching power of 1024.", "quantifier": "every digit string and suffix whose value fits in 64 bits", "why_tests_cant": "The claim ranges over infinitely many inputs; a test samples finitely many and boundary combinations (sizes, whitespace, wrap-around) are exactly what samples miss.", "anchors": ["src/tools/Memory.cpp: ReadFromString"]}
{"id": "C13", "title": "Reference counted objects are destroyed exactly once, at the right time", "statement": "An object registered n times is destroyed exactly when it has been released n times since it was first registered, never earlier and never twice; releasing an unknown object does nothing; the final clean-up destroys every remaining object exactly once.", "quantifier": "every history of register/release calls over any set of objects", "why_tests_cant": "The claim ranges over every sequence of API calls; tests exercise a handful of histories and cannot exclude a later interleaving that breaks the bookkeeping.", "anchors": ["src/tools/Collector.h: Register, Delete(T*), Delete(), IsAllocated, Elements"]}
{"id": "C14", "title": "Asking for an option does not change the command line", "statement": "Whether an option was given on the command line is reported the same before and after the program reads option values or checks for missing options.", "quantifier": "every parsed command line and every sequence of queries", "why_tests_cant": "The claim ranges over every sequence of API calls; tests exercise a handful of histories and cannot exclude a later interleaving that breaks the bookkeeping.", "anchors": ["src/tools/Getopt.cpp: GetOption, CheckOptions"]}
{"id": "C15", "title": "Grid addressing is a bijection", "statement": "For every grid shape and every chosen dimension, the pair (point along the dimension, stripe number) addresses every element of the grid vector exactly once and stays inside the vector; the address has the requested coordinate along the chosen dimension.", "quantifier": "every number of dimensions, every positive size per dimension, every dimension and point", "why_tests_cant": "The claim ranges over infinitely many inputs; a test samples finitely many and boundary combinations (sizes, whitespace, wrap-around) are exactly what samples miss.", "anchors": ["src/qdlib/GridSystem.h: Index, IndexBase", "src/qdlib/GridSystem.cpp: _BuildInfo, Size"]}
{"id": "C16", "title": "Axis-wise operations touch each element once with its own coordinate", "statement": "Adding (or assigning, multiplying) a one dimensional array along a dimension of a multi dimensional view combines each element with the array entry of its own coordinate in that dimension, for any sequence of dimension switches.", "quantifier": "every grid shape, every array, every sequence of dimension selections", "why_tests_cant": "The claim ranges over every sequence of API calls; tests exercise a handful of histories and cannot exclude a later interleaving that breaks the bookkeeping.", "anchors": ["src/math/VectorView.h: ActiveDim, operator+=, operator*=, operator="]}
{"id": "C17", "title": "Single dimension FFT plans visit each stripe once", "statement": "The strides handed to the FFT library for a transform along one dimension enumerate every element of the grid exactly once, each stripe consisting of the elements that differ only in that dimension.", "quantifier": "every number of dimensions, sizes and chosen dimension", "why_tests_cant": "The claim ranges over infinitely many inputs; a test samples finitely many and boundary combinations (sizes, whitespace, wrap-around) are exactly what samples miss.", "anchors": ["src/fft/fft.cpp: FFT::_CreatePlanDim, _lothers, _uothers"]}
{"id": "C18", "title": "Momentum grid follows the FFT frequency order", "statement": "The k-space value at index i is 2*pi/L times the signed frequency of FFT bin i (i for bins below the middle, i-N above), for the first derivative, and its square with the mass prefactor for the second derivative, for even and odd grids.", "quantifier": "every grid size and index", "why_tests_cant": "The claim ranges over infinitely many inputs; a test samples finitely many and boundary combinations (sizes, whitespace, wrap-around) are exactly what samples miss.", "anchors": ["src/qdlib/Kspace.cpp: Init1Dddx, Init1Dd2dx2"]}
{"id": "C19", "title": "Spectrum frequency axis", "statement": "The frequency axis written with an autocorrelation spectrum labels bin i with its signed FFT frequency, the one of least absolute value congruent to i modulo N.", "quantifier": "every spectrum length and bin", "why_tests_cant": "The claim ranges over infinitely many inputs; a test samples finitely many and boundary combinations (sizes, whitespace, wrap-around) are exactly what samples miss.", "anchors": ["src/Reporter.cpp: Reporter::WriteSpectrum"]}
{"id": "C20", "title": "Finite difference along one dimension applies the documented stencil", "statement": "Differentiating along one dimension gives at each grid point the weighted sum of its neighbours along that dimension with the tabulated coefficients, wrapping around for periodic boundaries and treating points outside the grid as zero otherwise, and leaves other dimensions unmixed.", "quantifier": "every grid, every order, every vector with at least as many points as the stencil is wide", "why_tests_cant": "The claim is an identity over every state vector and operator; numeric tests only compare a few vectors up to rounding.", "anchors": ["src/qdlib/HOFD.h: _DiffSingleDim, Diff(\u2026, dim)"]}
{"id": "C21", "title": "Finite difference over all dimensions equals the sum over dimensions", "statement": "Differentiating over all dimensions at once equals the sum of the single dimension derivatives.", "quantifier": "every grid and vector", "why_tests_cant": "The claim is an identity over every state vector and operator; numeric tests only compare a few vectors up to rounding.", "anchors": ["src/qdlib/HOFD.h: Diff(Vector*,Vector*)"]}
{"id": "C22", "title": "The disk-backed buffer behaves like an array", "statement": "Reading entry i of the buffer returns the wave function most recently stored at i, whatever other entries were stored, read or swapped to disk in between, and after every successful call the memory held is within the configured limit.", "quantifier": "every history of store/read/lock calls, every size limit", "why_tests_cant": "The claim ranges over every sequence of API calls; tests exercise a handful of histories and cannot exclude a later interleaving that breaks the bookkeeping.", "anchors": ["src/qdlib/WFBuffer.cpp: Set, Get, _MoveToDisk, _MoveToMem, ResizeBuffer"]}
{"id": "C23", "title": "A buffer entry just returned is usable", "statement": "The pointer returned by reading a buffer entry is valid (the entry is in memory), and stays valid until as many other reads as the auto-lock depth were made.", "quantifier": "every history of store/read calls and every auto-lock depth", "why_tests_cant": "The claim ranges over every sequence of API calls; tests exercise a handful of histories and cannot exclude a later interleaving that breaks the bookkeeping.", "anchors": ["src/qdlib/WFBuffer.cpp: Get, _MoveToDisk, AutoLock"]}
{"id": "C24", "title": "Multi state wave functions survive the stream format", "statement": "Writing a (possibly multi state) wave function to a stream and reading it back yields the same state list, and leaves the stream positioned right after the wave function.", "quantifier": "every wave function, every following stream content", "why_tests_cant": "The claim ranges over infinitely many inputs; a test samples finitely many and boundary combinations (sizes, whitespace, wrap-around) are exactly what samples miss.", "anchors": ["src/qdlib/FileWF.cpp: WriteWaveFunction, ReadWaveFunction, LoadWaveFunctionByMeta"]}
{"id": "C25", "title": "Uncompressed data files are read verbatim", "statement": "Reading back a data file that was written without compression returns exactly the bytes written.", "quantifier": "every byte sequence", "why_tests_cant": "The claim ranges over infinitely many inputs; a test samples finitely many and boundary combinations (sizes, whitespace, wrap-around) are exactly what samples miss.", "anchors": ["src/tools/FileSingle.h: DetectCompressionInPayload"]}
{"id": "C26", "title": "Binary serialisation round trip", "statement": "Serialising and deserialising a level wave function, a laser field or a matrix operator returns the same dimensions and the same bytes of data and consumes exactly the bytes written.", "quantifier": "every size and content", "why_tests_cant": "The claim ranges over infinitely many inputs; a test samples finitely many and boundary combinations (sizes, whitespace, wrap-around) are exactly what samples miss.", "anchors": ["src/qdlib/WFLevel.cpp: Serialize, DeSerialize", "src/qdlib/Laser.cpp: Serialize, DeSerialize", "src/qdlib/OHermitianMatrix.cpp: Serialize, DeSerialize"]}
{"id": "C27", "title": "Swapping a wave function to disk preserves it", "statement": "A wave function that is serialised and deserialised (as done when a buffer swaps it to disk) has the same state vectors as before.", "quantifier": "every wave function, including multi state ones", "why_tests_cant": "The claim ranges over infinitely many inputs; a test samples finitely many and boundary combinations (sizes, whitespace, wrap-around) are exactly what samples miss.", "anchors": ["src/qdlib/WFMultistate.cpp: Serialize, DeSerialize", "src/qdlib/WFBuffer.cpp: _MoveToDisk, _MoveToMem"]}
{"id": "C28", "title": "Building a multi state wave function stays in bounds", "statement": "Adding states and initialising a multi state wave function either succeeds with every state up to the requested number present and of equal shape, or raises an error; it never writes outside the state table.", "quantifier": "every sequence of added states and every requested number of states", "why_tests_cant": "The claim ranges over every sequence of API calls; tests exercise a handful of histories and cannot exclude a later interleaving that breaks the bookkeeping.", "anchors": ["src/qdlib/WFMultistate.cpp: Add, Init"]}
{"id": "C29", "title": "Multi state inner product and norm", "statement": "The inner product of two multi state wave functions is the sum of the inner products of their states; the squared norm is the sum of the squared state norms; it is linear in the right and conjugate linear in the left argument when the states' products are.", "quantifier": "every pair of multi state wave functions with the same number of states", "why_tests_cant": "The claim is an identity over every state vector and operator; numeric tests only compare a few vectors up to rounding.", "anchors": ["src/qdlib/WFMultistate.cpp: operator*, Norm, operator+=, operator="]}
{"id": "C30", "title": "Sum operators add", "statement": "Applying a sum operator gives the sum of the results of its parts, whichever of the three application forms (copying, in place, accumulating) is used, and in-place application leaves nothing of the intermediate buffers behind.", "quantifier": "every number of parts up to the list capacity, every wave function", "why_tests_cant": "The claim is an identity over every state vector and operator; numeric tests only compare a few vectors up to rounding.", "anchors": ["src/qdlib/OSum.cpp: Apply, ApplyAdd", "src/qdlib/OList.cpp: Add, Get"]}
{"id": "C31", "title": "Product operators compose right to left", "statement": "Applying a product operator A*B*...*Z applies Z first and A last, identically for the copying and the in-place form.", "quantifier": "every number of factors, every wave function", "why_tests_cant": "The claim is an identity over every state vector and operator; numeric tests only compare a few vectors up to rounding.", "anchors": ["src/qdlib/OProduct.cpp: Apply"]}
{"id": "C32", "title": "Multi state operators act as operator matrices", "statement": "Applying a multi state operator gives in state i the sum over j of element (i,j) applied to state j (missing diagonal elements acting as identity iff 'unity' is set); after initialisation in hermitian mode elements (i,j) and (j,i) coincide, an explicitly given upper element taking precedence; a copy acts as the original.", "quantifier": "every matrix of operators and every multi state wave function", "why_tests_cant": "The claim is an identity over every state vector and operator; numeric tests only compare a few vectors up to rounding.", "anchors": ["src/qdlib/OMultistate.cpp: Add, Init, Apply, Copy"]}
{"id": "C33", "title": "A copied operator list is equivalent to the original", "statement": "A copy of an operator list answers the same look-ups by position and by name as the original.", "quantifier": "every operator list", "why_tests_cant": "The claim ranges over every sequence of API calls; tests exercise a handful of histories and cannot exclude a later interleaving that breaks the bookkeeping.", "anchors": ["src/qdlib/OList.cpp: Copy, Get, Add"]}
{"id": "C34", "title": "Propagation exponent follows direction and time type", "statement": "After any sequence of clock assignments and forward/backward and real/imaginary time switches, the propagator's exponent is -i*dt, +i*dt, +dt or -dt according to the last direction and the last time type chosen, and dt of the last clock.", "quantifier": "every history of these calls", "why_tests_cant": "The claim ranges over every sequence of API calls; tests exercise a handful of histories and cannot exclude a later interleaving that breaks the bookkeeping.", "anchors": ["src/qdlib/OPropagator.h: Clock, Forward, Backward, ImaginaryTime, RealTime"]}
{"id": "C35", "title": "Split operator propagation is time reversible", "statement": "One forward step of the generalised split operator followed by one backward step restores every wave function exactly.", "quantifier": "every number of operators, every wave function, every invertible exponentials", "why_tests_cant": "The claim is an identity over every state vector and operator; numeric tests only compare a few vectors up to rounding.", "anchors": ["src/qdlib/OGSPO.cpp: Apply"]}
{"id": "C36", "title": "Split operator exponentials are never stale", "statement": "Every step applies exponentials belonging to the current time step (for time dependent operators) and the current direction of time, although they are recomputed only when necessary.", "quantifier": "every history of clock steps, direction changes and steps", "why_tests_cant": "The claim ranges over every sequence of API calls; tests exercise a handful of histories and cannot exclude a later interleaving that breaks the bookkeeping.", "anchors": ["src/qdlib/OGSPO.cpp: InitExp, Apply"]}
{"id": "C37", "title": "RK4 step is the fourth order Taylor polynomial", "statement": "For a linear Hamiltonian one Runge-Kutta step maps psi to the degree four Taylor polynomial of exp(c H) applied to psi, in the in-place and in the copying form (which leaves the source untouched).", "quantifier": "every linear operator, every wave function, every exponent", "why_tests_cant": "The claim is an identity over every state vector and operator; numeric tests only compare a few vectors up to rounding.", "anchors": ["src/qdlib/ORK4.cpp: Apply"]}
{"id": "C38", "title": "Chebyshev step evaluates the Chebyshev series", "statement": "One Chebyshev step yields the truncated series sum_k c_k phi_k of the recursion phi_{k+1} = 2 X phi_k + phi_{k-1} (minus in imaginary time) with X the shifted and scaled Hamiltonian, with the number of terms given by the order or the first converged term.", "quantifier": "every order >= 3, every coefficient list, every linear operator and wave function", "why_tests_cant": "The claim is an identity over every state vector and operator; numeric tests only compare a few vectors up to rounding.", "anchors": ["src/qdlib/OCheby.cpp: real_time_step, imag_time_step"]}
{"id": "C39", "title": "Projection operators project", "statement": "Applying a projector built from orthonormal states twice is the same as applying it once, the inverse projector removes exactly these states, and a copy of a projector projects on the same states.", "quantifier": "every orthonormal list of states, every wave function", "why_tests_cant": "The claim is an identity over every state vector and operator; numeric tests only compare a few vectors up to rounding.", "anchors": ["src/qdlib/OProjection.cpp: Apply, Copy, Add"]}
{"id": "C40", "title": "Jump selection follows the cumulative probabilities", "statement": "A quantum jump step applies jump operator i exactly when the random number lies between the (i-1)-th and the i-th cumulative jump probability, applies none when it exceeds the total, and refuses when the total exceeds the permitted maximum.", "quantifier": "every number of jump operators, all probabilities, every random number", "why_tests_cant": "The claim ranges over infinitely many inputs; a test samples finitely many and boundary combinations (sizes, whitespace, wrap-around) are exactly what samples miss.", "anchors": ["src/qdlib/OJump.cpp: Apply"]}
{"id": "C41", "title": "Linear combinations of wave functions", "statement": "A linear combination definition loads the sum of its wave functions, each with its coefficient.", "quantifier": "every list of wave functions and coefficients", "why_tests_cant": "The claim ranges over infinitely many inputs; a test samples finitely many and boundary combinations (sizes, whitespace, wrap-around) are exactly what samples miss.", "anchors": ["src/ChainLoader.cpp: LoadWFLC_, LoadWaveFunctionChain"]}
{"id": "C42", "title": "Propagation runs the requested number of steps, and restarts continue it", "statement": "A propagation of N steps applies the propagator N times, stepping the clock once per application, and writes the state after every multiple of the write cycle; a run restarted at step s continues to the same final step and time as the uninterrupted run.", "quantifier": "every number of steps, write cycle and restart step", "why_tests_cant": "The claim ranges over every sequence of API calls; tests exercise a handful of histories and cannot exclude a later interleaving that breaks the bookkeeping.", "anchors": ["src/ProgPropa.cpp: Run, _InitParams"]}
{"id": "C43", "title": "Filter chains evaluate in order and integrate", "statement": "Filters are applied in definition order, an expectation value filter sees the state left by the filters before it, 'expeconly' and 'rho' leave the state unchanged, and an integrating filter's value after n applications is the sum of its n values times the time step.", "quantifier": "every list of filters, every sequence of states", "why_tests_cant": "The claim ranges over every sequence of API calls; tests exercise a handful of histories and cannot exclude a later interleaving that breaks the bookkeeping.", "anchors": ["src/FiltersList.cpp: Apply, Add"]}
{"id": "C44", "title": "Global operator registry", "statement": "Each operator in the registry is initialised with a wave function at most once through the registry; clearing removes exactly the non persistent entries; at most the requested number of labelled operators is stored in the caller's array; adding never replaces an existing entry with the same key.", "quantifier": "every history of add/init/label/clear calls", "why_tests_cant": "The claim ranges over every sequence of API calls; tests exercise a handful of histories and cannot exclude a later interleaving that breaks the bookkeeping.", "anchors": ["src/GlobalOpList.cpp: Add, Init, GetLabels, Clear, SetLabel"]}
{"id": "C45", "title": "Simplified input is translated to the equivalent XML tree", "statement": "For every input with balanced braces the XML written contains the same element tree with the same attributes in the same order, loop bodies repeated for the loop values, and reserved characters of quoted strings escaped so that an XML reader recovers them.", "quantifier": "every input token sequence", "why_tests_cant": "The claim ranges over infinitely many inputs; a test samples finitely many and boundary combinations (sizes, whitespace, wrap-around) are exactly what samples miss.", "anchors": ["src/simpleXml/grammar.yy", "src/simpleXml/SyntacticTreeModel.h: block, forloop, xmlnode, varstring"]}
{"id": "C46", "title": "Variable length integers round trip", "statement": "Every 64 bit value written as a variable length integer is read back unchanged together with the number of bytes written, and the predicted size equals the number of bytes.", "quantifier": "every value below 2^64 and every following data", "why_tests_cant": "The claim ranges over infinitely many inputs; a test samples finitely many and boundary combinations (sizes, whitespace, wrap-around) are exactly what samples miss.", "anchors": ["src/matlab/pblib_write_varint.m", "src/matlab/pblib_read_varint64.m", "src/matlab/pblib_read_varint32.m", "src/matlab/pblib_encoded_varint_size.m"]}
{"id": "C47", "title": "Vectorised and scalar kernels agree", "statement": "Each complex arithmetic primitive of the SSE2/AVX code paths computes, in exact arithmetic, the same result as the scalar code path.", "quantifier": "every operand", "why_tests_cant": "The claim is an identity over every state vector and operator; numeric tests only compare a few vectors up to rounding.", "anchors": ["src/math/m128dc.h", "src/math/m256dc.h", "src/math/dcomplex.h", "src/math/codelets"]}
{"id": "C48", "title": "Absorbing layers stay inside the grid", "statement": "Applying a perfectly matched layer multiplies exactly the requested number of outermost points on the requested side(s) of each stripe, each once, and touches no memory outside the vector.", "quantifier": "every grid, layer thickness and side", "why_tests_cant": "The claim ranges over infinitely many inputs; a test samples finitely many and boundary combinations (sizes, whitespace, wrap-around) are exactly what samples miss.", "anchors": ["src/qdlib/PML.cpp: InitParams, ApplyTransform"]}
{"id": "C49", "title": "A grid sum operator is the sum of its parts", "statement": "A sum of potentials evaluated on the grid equals at each point the sum of the parts, for any number of parts.", "quantifier": "every number of parts and grid values", "why_tests_cant": "The claim ranges over infinitely many inputs; a test samples finitely many and boundary combinations (sizes, whitespace, wrap-around) are exactly what samples miss.", "anchors": ["src/qdlib/OGridSum.cpp: _Update, Add"]}
{"id": "C50", "title": "Peak finder returns exactly the local maxima", "statement": "The list of local maxima contains index i iff the value at i is strictly larger than both neighbours; every reported peak index lies inside the data.", "quantifier": "every data array", "why_tests_cant": "The claim ranges over infinitely many inputs; a test samples finitely many and boundary combinations (sizes, whitespace, wrap-around) are exactly what samples miss.", "anchors": ["src/tools/PeakFinder.cpp: Maximas, Minimas, _FindData"]}
{"id": "C51", "title": "Copies of matrix operators are usable", "statement": "A copy of a matrix operator answers energy bounds and application like the original.", "quantifier": "every matrix operator, diagonalised or not", "why_tests_cant": "The claim ranges over every sequence of API calls; tests exercise a handful of histories and cannot exclude a later interleaving that breaks the bookkeeping.", "anchors": ["src/qdlib/OHermitianMatrix.cpp: Copy, Emax, InitDspace"]}
{"id": "C52", "title": "Lanczos matrix is complete on convergence", "statement": "After building the Lanczos basis every basis vector used in the propagation has its diagonal matrix element in the Lanczos matrix.", "quantifier": "every order and every convergence pattern", "why_tests_cant": "The claim ranges over every sequence of API calls; tests exercise a handful of histories and cannot exclude a later interleaving that breaks the bookkeeping.", "anchors": ["src/qdlib/OSIL.cpp: BuildLZB, DiagLZB"]}
{"id": "C53", "title": "Kinetic energy of a multi dimensional finite difference operator uses each dimension's mass", "statement": "The finite difference kinetic energy operator scales the derivative along dimension i with -1/(2 m_i).", "quantifier": "every number of dimensions and masses", "why_tests_cant": "The claim ranges over infinitely many inputs; a test samples finitely many and boundary combinations (sizes, whitespace, wrap-around) are exactly what samples miss.", "anchors": ["src/qdlib/OGridHOFD.cpp: Init"]}
{"id": "C54", "title": "Scaled laser fields are consistent", "statement": "The pulse energy of a laser equals the time step times the sum of the squared field values the laser reports, for every scale factor; a copied laser reports the same field values.", "quantifier": "every field, scale factor and time step", "why_tests_cant": "The claim is an identity over every state vector and operator; numeric tests only compare a few vectors up to rounding.", "anchors": ["src/qdlib/Laser.cpp: Get, PulseEnergy, operator="]}
{"id": "C55", "title": "Lossy reduction keeps large components", "statement": "Reducing a wave function with tolerance t zeroes only components whose absolute value is below t times the largest and keeps all others unchanged.", "quantifier": "every vector and tolerance", "why_tests_cant": "The claim is an identity over every state vector and operator; numeric tests only compare a few vectors up to rounding.", "anchors": ["src/qdlib/WFLevel.cpp: Reduce", "src/qdlib/WFGridSystem.cpp: Reduce"]}
{"id": "C56", "title": "Stream copies are complete", "statement": "Copying a byte block through a chunked zero copy stream transfers exactly the requested bytes in order, whatever chunk sizes the stream offers, and returns unused bytes.", "quantifier": "every byte block and every sequence of chunk sizes", "why_tests_cant": "The claim ranges over infinitely many inputs; a test samples finitely many and boundary combinations (sizes, whitespace, wrap-around) are exactly what samples miss.", "anchors": ["src/tools/ZCopyStream.cpp"]}
{"id": "C57", "title": "Clock arithmetic", "statement": "Time equals step times step size; synchronising a clock with a master clock succeeds iff the master's time is an integer multiple of the clock's own step size, and afterwards the synchronised clock shows the master's time.", "quantifier": "every step size, step count and step", "why_tests_cant": "The claim ranges over infinitely many inputs; a test samples finitely many and boundary combinations (sizes, whitespace, wrap-around) are exactly what samples miss.", "anchors": ["src/tools/QDClock.cpp"]}
{"id": "C58", "title": "Non-option arguments", "statement": "Asking for the i-th non-option argument, as a string or into a buffer, gives the i-th command line word after the options, or reports that there is none.", "quantifier": "every parsed command line and every index", "why_tests_cant": "The result depends on how many options and option arguments precede the word; tests try a few command lines only.", "anchors": ["src/tools/Getopt.cpp: GetNonOption"]}
{"id": "C59", "title": "Mixed derivatives", "statement": "The mixed derivative along two different dimensions equals, at every grid point, the derivative along the first dimension followed by the derivative along the second (with periodic boundaries).", "quantifier": "every grid with at least as many points per dimension as the stencil is wide, every pair of different dimensions, every vector", "why_tests_cant": "Blocked loops with block sizes chosen by divisibility: a finite set of grid sizes cannot show that every point of every grid is covered exactly once.", "anchors": ["src/qdlib/HOFD.h: Diff(res, buf, in, dim1, dim2), _DiffBlock2D"]}
{"id": "C60", "title": "Finite difference coefficient tables", "statement": "For each derivative (first, second) and each even order from 2 to 50 the tabulated coefficients agree, to the printed precision, with the central difference weights that differentiate all polynomials up to the order exactly.", "quantifier": "all 50 rows of the two tables, all their entries", "why_tests_cant": "A wrong digit in one high order coefficient changes derivatives only slightly, below the tolerance of numeric tests; only the exact moment equations decide it.", "anchors": ["src/qdlib/cfd_table_1.h", "src/qdlib/cfd_table_2.h", "src/qdlib/HOFD.h: HOFD(int,int)"]}
{"id": "C61", "title": "Power spectrum stays inside its arrays", "statement": "Computing the power spectrum of a laser field with a clock of any number of steps fills exactly the Steps/2+1 values of the spectrum and touches no memory outside the arrays.", "quantifier": "every field and number of time steps", "why_tests_cant": "An out-of-bounds write usually does not crash; a test sees at most some sizes and no memory violation.", "anchors": ["src/qdlib/Laser.cpp: PowerSpectrum, Spectrum"]}
{"id": "C62", "title": "Reading a file never writes outside the allocated memory", "statement": "Whatever bytes are in a file, restoring a wave function, a laser field or a matrix operator from it either succeeds, fails with an exception or leaves the object unchanged, but never stores data outside the memory allocated for it.", "quantifier": "every byte sequence and every state of the object before", "why_tests_cant": "The space of malformed files is unbounded; tests try a few truncated files and cannot exclude one particular length field for which the allocation is too small.", "anchors": ["src/qdlib/WFLevel.cpp: DeSerialize", "src/qdlib/Laser.cpp: DeSerialize", "src/qdlib/OHermitianMatrix.cpp: DeSerialize"]}
{"id": "C63", "title": "Multi state maps put each state in its place", "statement": "A multimap definition with distinct target states yields a wave function whose target state s_i is input state i times its coefficient and whose other states are empty; a map of one entry yields that state alone; maps with too many entries or entries out of range are refused; no input leads to undefined behaviour.", "quantifier": "every multi state wave function, every map and coefficient list, present or absent", "why_tests_cant": "The claim ranges over infinitely many inputs; a test samples finitely many and boundary combinations (absent map, empty coefficient list, entries out of range) are exactly what samples miss.", "anchors": ["src/ChainLoader.cpp: LoadWFMultimap_"]}
{"id": "C64", "title": "Input files are recognised and handed over as they are", "statement": "A file with an XML document is recognised as XML and its text is handed to the XML parser unchanged; a file in the simplified format is recognised as such and translated; missing and empty files and files of neither kind are refused with an exception.", "quantifier": "every file content of any length and every content of the uninitialised memory it is read into", "why_tests_cant": "Whether the text behind the file is a zero byte depends on the state of the heap, which tests do not control, and the type detection goes wrong only for files from 1024 bytes on or with particular comments.", "anchors": ["src/simpleXml/Simple2Xml.cpp: CheckType", "src/qdng.cpp: CheckInput"]}
{"id": "C65", "title": "The scanner reads back every text of tokens and ignores nothing else than blanks and comments", "statement": "The scanner of the simplified format follows its rules by the longest match; every sequence of tokens, written with any layout, blanks and comments, is read back as this sequence; quoted texts are one token; comments do not become tokens of the program; characters that belong to no token are refused.", "quantifier": "every input text", "why_tests_cant": "The inputs are unbounded; tests use well-formed files that end with a line end, so that dropped characters and comments in the last line go unnoticed.", "anchors": ["src/simpleXml/simpleXml.ll", "src/simpleXml/Simple2Xml.cpp: Parse"]}
{"id": "C66", "title": "Every command of the interactive mode is answered once and the conversation stays in step", "statement": "In the interactive mode a client sends length-prefixed command messages (RUN_PROG, READ_WF, WRITE_WF, READ_OP, WRITE_OP, LOAD_OP, LOAD_U, DELETE_OP, CLEAR_OBJECTS, APPLY_OP, GET_EXPEC, GET_MATEL, GET/SET_GLOBAL_PARAMS, QUIT), sends its data after the server has confirmed the command, and reads one answer. For every command, state of the server and behaviour of operators, files and programs, and whatever the scheduling of the two processes: the client gets one answer (the result or the error), no message is left over in either direction, and the server is ready for the next command or has ended after the answer; every response carries the fields IACmds.proto requires; parameters set by SET_GLOBAL_PARAMS are returned by GET_GLOBAL_PARAMS; the client scripts in src/matlab complete.", "quantifier": "all commands with all combinations of fields, all payloads, all server states, all environments (operators, files, modules, programs as oracles), all interleavings of client and server, sessions of any length", "why_tests_cant": "The claim is about all interleavings of two communicating processes, all failure points of a command and sessions of any length; the repository has no test of the interactive mode, and a lost or surplus message shows only in the next command.", "anchors": ["src/CmdHandler.cpp:26-74", "src/CmdHandler.cpp:240-863", "src/CmdHandler.h", "src/IACmds.proto", "src/matlab/qd_handle_response.m", "src/matlab/qd_read_response.m", "src/matlab/qd_write_cmd.m", "src/matlab/qd_cmd_xml.m", "src/matlab/qd_cmd_expec.m", "src/matlab/qd_cmd_matel.m", "src/matlab/qd_cmd_apply_op.m", "src/matlab/qd_get_global_params.m", "src/matlab/qd_set_global_params.m", "src/matlab/qd_cmd_quit.m"]}
{"id": "C67", "title": "An input document is run element by element in its order, and the exit status tells whether it succeeded", "statement": "Running an input document loads its operator definitions (opdefs), then its wave function definitions (wfdefs), then runs its programs (propa, filter, eigen, oct, cfunc), each element once and in the order of the document, comments and other nodes being ignored; the root is a collection (multi, qdng) or a single program. All of them see the global parameters with the attributes of the root, and the output directory of the command line (-d, else QD_DIR), of the document or of the global parameters, in this order, with a slash at its end. The first failure or unknown element ends the run with an error. No document leads to undefined behaviour. The variables set on the command line reach the reader of the document, the last setting of a name counting. The exit status is 0 exactly if a document has been run to its end.", "quantifier": "all documents (trees of elements and other nodes with any names and attributes), all initial global parameters, all behaviours of the definitions and programs (oracles), all command lines and environments", "why_tests_cant": "The behaviour depends on the whole shape of the document and on which of arbitrarily many actions fails; tests run a few fixed documents. That the actions are exactly the planned ones, each once and in order, is a statement about all documents.", "anchors": ["src/CmdHandler.cpp:76-238", "src/tools/XmlNode.cpp:39-156", "src/tools/XmlParser.cpp", "src/qdng.cpp:140-347"]}
{"id": "C68", "title": "Correlation functions are the scalar products at the times they are written for", "statement": "For a definition U s of the ket the program for correlation functions writes the values <U(t) b0 psi | s U(t) k0 psi> for t = 0, w, 2w, ..., one for each write cycle; for U a U s the values <U(t2) b0 psi | s U(t2,t1) a U(t1) k0 psi> for t1 <= t2 at place t1*Nt+t2, with the first operators on the bra the mirror image, and zero for t2 < t1 and for differences above the limit stepsint. All operators of the definition act, each at its own time; bra and ket are taken at the same time. A series written by the program can be read again and gives the same values.", "quantifier": "all wave functions, scalar products, time dependent propagators and operators, all definitions of bra and ket, all numbers of steps, write cycles and limits", "why_tests_cant": "The claim ranges over all definitions and over the times at which time dependent operators act; results that are shifted by one write cycle, or that lack one of two operators, look like plausible correlation functions. The repository has no test of this program.", "anchors": ["src/ProgCfun.cpp:98-219", "src/ProgCfun.cpp:245-379", "src/ProgCfun.cpp:404-535", "src/WFBuffer.cpp"]}
{"id": "C69", "title": "The filter program sees every wave function a propagation wrote, in order and at its time", "statement": "Applied to the directory of a propagation with write cycle w, the filter program applies its filters and the report to the initial wave function and to the wave functions after w, 2w, ... steps, each once and in order, with the clock counting write cycles (so that clock step times time step is the time of the wave function), and then ends without an error; if the filters refuse a wave function the program ends there. This holds for every propagation that was accepted and completed.", "quantifier": "all propagators, filters and reports, all numbers of steps, write cycles and restarts the propagation accepts, all wave functions", "why_tests_cant": "The claim connects the files and the meta file one program writes with what another reads, for all parameters; a file left out at the end of a series, or a series read with a shifted clock, shows only in the results of an analysis.", "anchors": ["src/ProgFilter.cpp:36-172", "src/ProgPropa.cpp:144-172", "src/ProgPropa.cpp:285-345"]}
{"id": "C70", "title": "Double parameters survive the passage through their texts", "statement": "A double valued parameter that is set in a container is read back as the same double. A text denoting a decimal number (sign, digits, fraction, exponent, blanks in front) is read as the double closest to that number. What is written is a decimal number that can be stored in a line of a parameter file. Values given with at most six significant digits survive any number of passages; other values change by at most one part in 100000, keep their sign and do not change any more in further passages; arrays behave as their elements.", "quantifier": "all finite doubles, all texts of decimal numbers, all containers and keys", "why_tests_cant": "Two of the 2^64 doubles and one text of arbitrary length per test; the loss of digits is invisible for the round numbers tests use, and the claim that nothing is lost in later passages concerns every double.", "anchors": ["src/tools/ParamContainer.cpp:223-234", "src/tools/ParamContainer.cpp:278-294", "src/tools/ParamContainer.cpp:583-592", "src/tools/ParamContainer.cpp:611-624"]}
{"id": "C71", "title": "Eigenfunctions by relaxation: orthonormal states, diagonal Hamiltonian", "statement": "An eigenfunction run in imaginary time that ends normally leaves Nef orthonormal states in the files 0..Nef-1. Each is reached from the normalised initial wave function by at least one and at most 'steps' steps (propagate, remove all lower states, normalise), ending with the first step that changes no more than 'conv'; the energies written are the expectation values of the states; continuing with 'start' gives exactly what a run without interruption gives. With diag the files hold orthonormal combinations in which the Hamiltonian is diagonal with the energies written.", "quantifier": "all propagators, Hamiltonians, scalar products, initial wave functions, numbers of states, step limits and convergence criteria, all contents of the files of a restart", "why_tests_cant": "The loss of orthogonality only shows for particular convergence values, and the lost imaginary parts only for Hamiltonians with complex elements; that a restart is exact is a statement about all interruptions.", "anchors": ["src/ProgEigen.cpp:55-136", "src/ProgEigen.cpp:158-240", "src/ProgEigen.cpp:318-407", "src/qdlib/OProjection.cpp:30-149", "src/qdlib/WFBuffer.cpp:224-341"]}
{"id": "C72", "title": "Eigenfunctions from an auto correlation are the Fourier components at the peaks", "statement": "With method 'ac', for every peak found in the spectrum of the auto correlation the file with the number of the peak holds the normalised component of the wave functions with the energy of the peak: if the propagation consists of components with energies on the frequency grid of the spectrum, the state at a peak is exactly the component with this energy (all others are removed), and its energy is the eigenvalue. This holds for a propagation that is run and for one that is read from files.", "quantifier": "all propagators and Hamiltonians, all numbers of steps, time steps, sets of components with distinct energies, all lists of peaks, all meta files of a propagation that is read", "why_tests_cant": "The frequencies of a propagation that is read are computed from the input instead of the meta file; a test with equal values does not see it. The removal of all other components is a statement about all spectra.", "anchors": ["src/ProgEigen.cpp:412-591", "src/ProgEigen.cpp:196-226"]}
{"id": "C73", "title": "The G-matrix operator is -1/2 sum d_r G_rs d_s", "statement": "For every mixture of constant, grid and left out elements that 'G', 'Gdef' and the files describe, with and without coupling of the coordinates and with and without the product rule ('chainrule'), adding the operator's result to a wave function adds exactly -1/2 sum_rs d_r (G_rs d_s psi), whatever its buffers held; with perfectly matched layers every derivative is replaced by the transformed one, and layers together with the product rule are refused. For anti-hermitian derivatives and real elements the operator is hermitian. A wave function on another grid is refused; a copy does what the original does; Emax bounds the energy of all momenta on the grid, Emin is a lower bound.", "quantifier": "all numbers of dimensions up to MAX_DIMS, all element kinds, all values, all derivative operators, all wave functions, all buffer contents", "why_tests_cant": "Kinds of elements, coupling, product rule and layers combine in many ways, several of which use unset pointers which may happen to work; the bounds are statements about all momenta and all grid functions.", "anchors": ["src/qdlib/OGridGMat.cpp:20-459", "src/qdlib/OGridGMat.h", "src/qdlib/Diff.cpp", "src/qdlib/PML.cpp"]}
{"id": "C74", "title": "The vector class keeps its storage in order", "statement": "For every sequence of calls on any number of vectors (construction, copy, assignment, new sizes, swaps, stride and partial copies, element access, arithmetic, references to other vectors, retiring and reacquiring storage, locking, destruction) that respects the interface, no access leaves the storage, no freed storage is used and nothing is freed twice; every answer is the one of plain values: what is written is read back, vectors with their own storage never change together, references change together with their masters; and when all vectors are gone so are all blocks and pointer arrays.", "quantifier": "all finite sequences of calls, all numbers of vectors, sizes, strides and values, all contents of fresh storage", "why_tests_cant": "Aliasing, ownership and the order of retiring, swapping and destroying combine without bound, and accesses one place behind an array or to freed storage usually go unnoticed.", "anchors": ["src/math/Vector.h:73-295", "src/math/Vector.h:364-463", "src/math/Vector.h:520-692", "src/math/Vector.h:781-795", "src/qdlib/Memory.cpp:197-263"]}
{"id": "C75", "title": "Krotov, Rabitz and frequency shaped control solve their field equation", "statement": "For every propagator, coupling, target (state or operator), gobbler, shape, number of targets and lasers: a run makes the fields e_1..e_K where every e_(j+1) satisfies, at every step k and for every laser, e(k) = base(k) - S(k)/(alpha n) (sum_t Im(...phi_t(k)...chi_t(k)...) + gamma(k)), phi_t being the initial state t propagated under e itself and chi_t target t propagated back under the field before; base is the field before (Krotov), its filtered version (frequency shaping) or 0 (Rabitz); gamma is 0 or the filtered correction of frequency shaping. This determines the field. Operator targets are formed from the initial states propagated under the field before. The reported yields are those of e_0, e_1, ..., e_K and the field written at the end is e_K.", "quantifier": "all propagators, couplings, targets, fields, numbers of steps, lasers, targets and iterations", "why_tests_cant": "The field equation is implicit and the buffers, swapped lasers and the clock running forwards and backwards all have to agree; a slip by one step or one swap changes every field a little and the yield may still grow.", "anchors": ["src/ProgOCT.cpp:297-372", "src/ProgOCT.cpp:456-607", "src/ProgOCT.cpp:719-815", "src/ProgOCT.cpp:845-1060", "src/tools/Laser.cpp", "src/tools/QDClock.cpp"]}
{"id": "C76", "title": "The feedback method uses the field it calculates on the way back", "statement": "In a run with method rabitzfb the targets (for operators: the operator applied to the states propagated to the final time) go back under the field calculated on the way from the states of the propagation before, and the new field is the Rabitz field for those targets.", "quantifier": "all propagators, couplings, targets, fields, numbers of steps, lasers, targets and iterations", "why_tests_cant": "The fields differ but the iterations still raise the yield; only the equations tell the methods apart.", "anchors": ["src/ProgOCT.cpp:612-714"]}
{"id": "C77", "title": "A moving target is the series given", "statement": "With a moving target the target of step k is wave function k of the series given in the input, in every iteration, and the last one is what the yields are compared with.", "quantifier": "all series, propagators, couplings, fields, numbers of steps, lasers, targets and iterations", "why_tests_cant": "The run goes through and reports yields; that they belong to another target is seen in the equations only.", "anchors": ["src/ProgOCT.cpp:845-900", "src/ProgOCT.cpp:456-475", "src/ProgOCT.cpp:522-530", "src/ProgOCT.cpp:960-975"]}
{"id": "C78", "title": "Optimal control ends when the yields have settled", "statement": "A run makes at most the allowed number of iterations, and makes fewer only if the last three yields it reported change by no more than the convergence criterion in sum.", "quantifier": "all sequences of yields, criteria and numbers of iterations", "why_tests_cant": "The sequences on which the start of the history matters (yields near its initial values) are special and depend on the physics.", "anchors": ["src/ProgOCT.cpp:975-1050"]}
{"id": "C79", "title": "The search for operators of a type finds all of them", "statement": "FindOperatorType finds, in every tree of operator lists and multistate operators, exactly the operators of the wanted type that carry the label (all if no label is asked for), reports their number, and returns a package with exactly these operators at their places in the lists and matrices. If there are more than the caller has room for, the caller's array is not left.", "quantifier": "all operator trees of any depth and size, all labellings, with and without label, all array sizes", "why_tests_cant": "The trees are unbounded and the failures depend on where in a matrix an operator is and on whether two elements are the same pointer; writes behind a small array often go unnoticed.", "anchors": ["src/ChainLoader.h:48-160", "src/GlobalOpList.cpp:108-122", "src/qdlib/OMultistate.cpp:34-66"]}
{"id": "C80", "title": "Optimal control uses the labelled lasers, or all", "statement": "The lasers that are optimised are exactly those with the label OptLaser in the Hamiltonian; if there are none, all lasers in it; if there is no laser at all the program stops with an error.", "quantifier": "all Hamiltonians with at most MAX_LASERS lasers, all labellings", "why_tests_cant": "A laser that is overlooked or an uninitialised pointer needs a particular place in the Hamiltonian; the usual two state example has none of them.", "anchors": ["src/ProgOCT.cpp:915-950", "src/ChainLoader.h:48-160"]}
{"id": "C81", "title": "A wave function is two vectors, one of them current", "statement": "Whatever sequence of operations a program applies to its grid wave functions (creation, writing, element-wise operations, switching between position and momentum space, Fourier transforms in all or one dimension, assignment, Reduce, Restore, Retire, Reaquire), nothing undefined happens, and every wave function that is not retired shows the grid, the representation and the elements that a pair of plain vectors (position space, momentum space) would show: a forward transform sets the momentum space vector to the transform of the position space vector and leaves the latter, and so on. In particular creating an FFT plan does not change data.", "quantifier": "all programs of any length, any number of wave functions and grids, all planner modes, all states of the FFTW wisdom, all transforms and all contents of fresh or overwritten storage", "why_tests_cant": "The failures depend on the order of first transforms, on wisdom left by earlier runs and on sizes met before; stale plans read freed storage which often still holds the expected numbers.", "anchors": ["src/qdlib/WaveFunction.h:104-183", "src/qdlib/WFGridSystem.cpp:13-136", "src/qdlib/TransformFFT.cpp:25-63", "src/fft/fft.cpp:80-278", "src/fft/FFTGlobal.cpp:42-72"]}
{"id": "C82", "title": "Momentum space tables of the derivative operators", "statement": "Diff's initialisation builds, for every dimension asked for, a table of the size of the grid holding at each point the first (k) or second (-k^2) derivative factor times the prefactor of that dimension, where k is the signed FFT frequency of the point's coordinate times dk; mixed tables hold products of two wave numbers; the collective table holds the sum over the dimensions for the order of derivative chosen; building again on another grid follows that grid. OGridNabla's table holds the sum of the wave numbers of the chosen dimensions, its Emax is the largest entry, its exponential is that of the operator applied, and a copy initialised like the original gets the same table. All kinetic energies of OGridNablaSq lie between Emin and Emax, and mass arrays that give no energy operator are rejected.", "quantifier": "all grids of any number and size of dimensions, all prefactors, masses and settings, all fields (rationals for order)", "why_tests_cant": "The tables are right in the settings used by tests (all dimensions, second derivative); single dimensions, mixed tables, re-initialisation, copies and mixed-sign masses need particular combinations.", "anchors": ["src/qdlib/Diff.cpp:52-195", "src/qdlib/OGridNabla.cpp:30-73", "src/qdlib/OGridNabla.cpp:117-215", "src/qdlib/OGridNablaSq.cpp:30-108"]}
{"id": "C83", "title": "Derivatives multiply the Fourier coefficients", "statement": "If a wave function shows in position space the backward transform of coefficients y, then applying OGridNabla (to another wave function, to itself as destination, or in place) leaves in the destination the backward transform of y multiplied coefficient by coefficient by i k fac (derivative) or k fac (momentum), by the complex conjugate if the adjoint is requested with Conj; the source and every other wave function show what they showed before. Likewise for Diff::DnDxn in all dimensions or one dimension (with the table entries, times i for odd order), for DnDxnAdd (adds to the destination) and for the mixed derivative DxDy (coefficients with respect to both dimensions).", "quantifier": "all grids, all tables of the size of the grid, all fields, all transforms that are inverse up to the number of points, all preceding programs on any number of wave functions, all planner modes and wisdom", "why_tests_cant": "The result depends on which representation each wave function was in, on earlier transforms and plans and on aliasing of source and destination; adjoint momentum and mixed derivatives are reached by no test that checks values.", "anchors": ["src/qdlib/OGridNabla.cpp:76-114", "src/qdlib/Diff.cpp:196-304", "src/qdlib/OGridNablaSq.cpp:108-111", "src/math/codelets", "src/qdlib/Operator.h:208-219"]}
{"id": "C84", "title": "Potential step of two coupled states", "statement": "diag22symm returns for a symmetric real 2x2 matrix an orthonormal pair of vectors, the columns of evec, that are eigenvectors for the eigenvalues in the same order. The potential step of OSPO at a grid point is the exponential of c times the potential matrix: it is linear, multiplies every eigenvector of the matrix by the exponential of c times its eigenvalue, conserves the norm for imaginary c, steps with c and c' compose to the step with c+c', and the step with -c undoes the step with c.", "quantifier": "all real matrices, all complex exponents, all pairs of amplitudes; also over every ordered field in which the square roots taken exist, and every exponential function", "why_tests_cant": "The failing matrices (equal diagonal, negative coupling) form a set of measure zero: states cross at single points, and a symmetric test with positive coupling hides the exchange of the vectors.", "anchors": ["src/math/math_functions.h:133-183", "src/qdlib/OSPO.cpp:386-406"]}
{"id": "C85", "title": "Split operator propagation over the life of the propagator", "statement": "After Init, each Apply of OSPO propagates the wave function with the exponent the propagator has and the potential of the time step the clock shows at that moment: half a step of the potential(s), a kinetic step in momentum space, half a step of the potential(s) for one state; half a kinetic step, the exponential of the potential matrix, half a kinetic step for two states, which without a coupling means each state moves in its own potential. Propagators with opposite exponents undo each other's step. An Init that returns leaves a propagator that can be used, and UpdateTime can be called after it.", "quantifier": "all operators (kinetic energies, potentials, couplings, time dependent or not), all transforms keeping the length, all sequences of Init, direction changes, clock changes and propagations, all ordered fields and exponentials", "why_tests_cant": "The tables are built once and refreshed by comparison with the last step seen; wrong results need particular orders of calls (turning the direction, starting the clock elsewhere, retrying Init) or an unusual set of operators.", "anchors": ["src/qdlib/OSPO.cpp:14-83", "src/qdlib/OSPO.cpp:155-335", "src/qdlib/OSPO.cpp:357-435", "src/qdlib/OPropagator.h:30-110"]}
{"id": "C86", "title": "Absorbers: Butterworth windows and absorbing potentials", "statement": "After Init an OGobbler is a diagonal operator: as a window its value at a grid point is the gain times the product over the dimensions of the left pass and right pass Butterworth filters given by the cut-offs, as a negative imaginary potential it is -i times the gain times the sum of the right passes (+i with the conjugate flag, the adjoint). Cut-offs outside of the grid are refused. A window of gain one lets no norm grow. Emin and Emax bound the values, the exponential is that of the operator, Expec can be asked at any time, copies act as the original.", "quantifier": "all numbers of dimensions, grid sizes, spacings, cut-offs, filter orders, gains, flags, wave functions, and sequences of Init and Copy", "why_tests_cant": "The defects need a cut-off exactly at or just outside of the edge, several dimensions with mixed passes, or a copy at a particular moment.", "anchors": ["src/qdlib/OGobbler.cpp:14-247", "src/qdlib/OGobbler.h", "src/math/math_functions.h:40-69", "src/qdlib/OGridsystem.cpp:28-61", "src/qdlib/ODSpace.h:65-69"]}
{"id": "C87", "title": "The momentum kick multiplies by a plane wave", "statement": "After Init with parameters and a wave function, OGridKick multiplies the wave function at every grid point by exp(i k.x), where the components of k are those given times the scale. So the norm is conserved, kicks add, the opposite kick undoes it, and a kick by n steps of the momentum grid shifts the Fourier transform by n. Wrong numbers of dimensions or components are refused. Copies act as the original, Emin and Emax bound the factors.", "quantifier": "all grids of 1 to 4 dimensions, all k and scales, all wave functions, all exponential functions with exp(a+b)=exp(a)exp(b)", "why_tests_cant": "The algebraic laws range over all grids and momenta; copies fail only at particular moments of the life of the operator.", "anchors": ["src/qdlib/OGridKick.cpp:10-170", "src/qdlib/OGridKick.h"]}
{"id": "C88", "title": "A potential read from a file is the one asked for", "statement": "Init of OGridPotential with the name of a complete file gives the stored values, with the lowest moved to zero if asked, plus the offset, times the scale, on the grid of the file, in both file formats and whatever the operator was before; otherwise it throws, and the operator can be used for another file. What is written can be read again. The operator multiplies by the values, is hermitian, Emin and Emax are the exact bounds of its energies, and a wave function is accepted exactly when its grid fits.", "quantifier": "all files and file systems, parameters, former states of the operator including failed loads, values and wave functions over every ordered field", "why_tests_cant": "The loader calls itself through the file reader and keeps a flag across exceptions; the defects need a failed load followed by another, or loading in one format and saving in the other.", "anchors": ["src/qdlib/OGridPotential.cpp:15-168", "src/qdlib/OGridsystem.cpp:28-97", "src/qdlib/GridSystem.cpp:101-158", "src/qdlib/GridSystem.cpp:248-262", "src/tools/FileSingle.h:1101-1105", "src/tools/FileSingle.h:1203-1300"]}
{"id": "C89", "title": "A dipole couples to the field of the laser", "statement": "After Init and Clock, at step t of the clock Apply of OGridDipole gives -scale*(mu+offset)*E(t)*psi at every grid point, and the exponents for the split operator are those of the same product; a laser that is missing or does not fit the clock is refused. |<psi|A|psi>| is at most Emax. Init again uses the new laser. Copies act as the original at every step. The samples of generated Gaussian pulses are numbers bounded by the height, with the height at the centre, and symmetric without phase and chirp; two pulses add.", "quantifier": "all dipole and laser files, parameters, clocks, steps, pulse parameters, wave functions over every ordered field; exp and cos are any functions with the listed laws", "why_tests_cant": "Which parameters the laser scaling sees depends on the file format that was read before; the lost scale and pulse of copies and the undefined default width show only in particular orders of calls or short clocks.", "anchors": ["src/qdlib/OGridDipole.cpp:13-87", "src/qdlib/OLaser.cpp:9-174", "src/qdlib/Laser.cpp:10-169", "src/qdlib/OGridPotential.cpp:15-168"]}
{"id": "C90", "title": "An Arnoldi step is exact on the Krylov space of the wave function", "statement": "Init refuses orders below 3, and afterwards every wave function can be propagated. The vectors built are orthonormal and the matrix is the projection of the Hamiltonian, hermitian for a hermitian Hamiltonian and diagonalisable. A step with function f gives p(H)psi, p being any polynomial with at most as many terms as vectors that agrees with f at the eigenvalues of the matrix; once the vectors span an invariant space every polynomial is exact. The result of a step depends neither on earlier steps nor on the operator being a copy.", "quantifier": "all fields of numbers, modules of wave functions, scalar products, linear Hamiltonians, orders, histories of propagated wave functions, tests for convergence", "why_tests_cant": "Eigenvectors as start leave the number of vectors of an earlier call in place, so the matrix contains old vectors; the effect needs particular histories, and a wrong projection of unnormalised wave functions looks like a convergence error.", "anchors": ["src/qdlib/OArnoldi.cpp:14-18", "src/qdlib/OArnoldi.cpp:40-81", "src/qdlib/OArnoldi.cpp:86-153", "src/qdlib/OArnoldi.cpp:155-214", "src/qdlib/OArnoldi.cpp:222-242", "src/qdlib/WFBuffer.cpp:224-289"]}
{"id": "C91", "title": "A matrix operator or dipole matrix read from a file is the stored matrix", "statement": "Init with a file gives the stored matrix, with setzero lowered so that its lowest eigenvalue is zero, also for an operator used before and after an attempt that failed; without file a size is needed. The exponents are the factor times the eigenvalues of the matrix the operator has, and the transformation into the eigenbasis knows the eigenvectors. Apply multiplies with the matrix. A dipole matrix couples as minus scale times matrix times field at the current step, setzero moves its own lowest eigenvalue to zero, and its reported bounds enclose the eigenvalues of the coupling at every step.", "quantifier": "all ordered fields, file contents (meta file and stream), sizes, parameters, earlier states of the operator, laser fields, steps, wave functions, and all functions for the eigenvalues", "why_tests_cant": "The wrong shift, the old eigenvalues and the missing transformation depend on the format of the file, on the order of calls and on what an operator did before; tests load one file into one new operator.", "anchors": ["src/qdlib/OHermitianMatrix.cpp:40-94", "src/qdlib/OHermitianMatrix.cpp:134-163", "src/qdlib/OHermitianMatrix.cpp:262-304", "src/qdlib/OMatDipole.cpp:19-91", "src/qdlib/ODSpace.h:61-65", "src/math/Matrix.h:139-146", "src/math/Matrix.h:303-345", "src/tools/FileSingle.h:1203-1300", "src/qdlib/OLaser.cpp:155-174"]}
{"id": "C92", "title": "Creating and removing directories does what it says and nothing else", "statement": "CreateDir never runs into undefined behaviour, never removes or changes a node, leaves existing directories alone, refuses files and paths through files, and if it returns the path leads to a directory; a missing path without dot components is made with exactly the missing directories above it. Remove takes away exactly one file or empty directory or throws and changes nothing; making and removing a directory leaves the file system as it was. IsFile and IsDir tell what a path leads to. StripLast is defined for every path.", "quantifier": "all file systems of files and directories, working directories, permissions, and paths (any number of slashes, dot components)", "why_tests_cant": "Tests create one or two fixed paths in one place; repeated slashes, dot components below missing directories, nodes of the wrong kind and what else changes in the tree need all paths and trees.", "anchors": ["src/tools/fstools.cpp:18-32", "src/tools/fstools.cpp:42-81", "src/tools/fstools.cpp:84-97", "src/tools/fstools.cpp:100-130"]}
{"id": "C93", "title": "The split operator exponential of a matrix of operators is that of the operator", "statement": "For operator matrices that are diagonal on the grid, one step of the split operator multiplies each eigenvector of the matrix at each grid point by the exponential of its eigenvalue; it is linear, keeps the weight of each point for imaginary exponents, steps add up and can be undone. Diagonal matrices multiply each state by the exponential of its element. With transformed diagonal elements each state is transformed there and back, and nothing changes without an exponent. Matrices that cannot be handled are refused.", "quantifier": "all numbers of states and grid points, operator matrices, wave functions, exponents, exponential functions, and all diagonalisations that meet LAPACK's guarantee", "why_tests_cant": "A test compares a propagation with a reference for one matrix; missing or unsymmetric elements, fields, mixed transformations and all sizes need every matrix.", "anchors": ["src/qdlib/ODMultistate.cpp:35-82", "src/qdlib/ODMultistate.cpp:115-182", "src/qdlib/TransformMSD.cpp:22-100", "src/qdlib/ODSpace.h:42-69", "src/qdlib/OGSPO.cpp:34-42", "src/linalg/LapackDiag.cpp:22-47"]}
{"id": "C94", "title": "Loading a module by name gives the class that name stands for", "statement": "Asking the module loader for a name of the handbook gives an object of that class, each time the same; unknown names are refused and change nothing; the loader counts exactly the successful requests. Objects can be asked for by the class name they report. With dynamic modules, libraries are searched in the user directory, QD_MOD_PATH, the program's directory and the system, and every operator of the handbook is available. Loading runs no commands and has no undefined behaviour.", "quantifier": "all names, loader states, sequences of requests, directories and environments (shell expansion, libraries that can be opened)", "why_tests_cant": "Tests load the modules they use in one installation; unusual names, environments, missing libraries and request sequences are unlimited.", "anchors": ["src/modules/ModuleLoader.h:20-243", "src/modules/ModuleLoader.cpp:14-100", "src/modules/InternalMods.cpp:67-167", "src/modules/Makefile.am:16-37", "src/CmdHandler.cpp:452", "src/CmdHandler.cpp:513-520"]}
{"id": "C95", "title": "The non-adiabatic coupling operator is the symmetrised derivative coupling", "statement": "Applying the operator gives sign/m sum_j (f_j d_j psi + 1/2 psi d_j f_j) whatever the destination held; the functions, sign and mass are those of the input. The operator is anti-hermitian, so two of them with opposite signs make a hermitian two state matrix. Copies act as the original, a second Init changes nothing, wave functions of another shape are refused. Emax bounds the operator and Emin is the estimate with the smallest elements.", "quantifier": "all numbers of dimensions 1..4, coupling functions, signs, masses, wave functions, linear multiplications, derivatives with the product rule and scalar products", "why_tests_cant": "A test checks one coupling on one grid; hermiticity, the product rule form and the bound are statements about every coupling function and wave function.", "anchors": ["src/qdlib/OGridNAC.cpp:13-191", "src/qdlib/OMultistate.cpp:122-132", "src/qdlib/Operator.h:215-218", "doc/Handbook.tex:1134-1174"]}
{"id": "C96", "title": "The Raman coupling is the product of both fields and the polarisability", "statement": "Applying the Raman operator at step t gives E1(t) alpha E2(t) psi, with the fields of the two laser files asked for and the polarisability of the file with offset and scale; it does not depend on which file is the first. Missing files, other numbers of lasers and fields that do not fit the clock are refused. The exponential for a step is exp(-i dt E1 alpha E2), Emin and Emax bound the coupling, and copies act as the original.", "quantifier": "all polarisabilities, field files, laser parameters, clocks, steps, wave functions, over any ordered field", "why_tests_cant": "A test runs one pair of pulses; factors, signs and doubled scales only show for the right combination of file kinds and parameters.", "anchors": ["src/qdlib/OGridRaman.cpp:12-88", "src/qdlib/OLaser.cpp:117-154", "doc/Handbook.tex:1033-1036"]}
{"id": "C97", "title": "The flux operator gives the flux out of the volume", "statement": "The expectation value is -2 integral_V Im(psi* T psi), the rate at which weight leaves the volume; for hermitian T what leaves a volume enters the rest of space. Exactly two operators are accepted, the operator cannot be applied, a second Init changes nothing, copies act as the original, and no call has undefined behaviour.", "quantifier": "all kinetic operators, volumes, wave functions, numbers of operators, sequences of Init and copies, over any ordered field", "why_tests_cant": "A test compares one number for one wave packet; the sign and the conservation law are statements about all wave functions and volumes.", "anchors": ["src/qdlib/OFlux.cpp:12-99", "src/qdlib/OList.cpp:42-47", "src/qdlib/WaveFunction.h:280-293", "src/qdlib/WFGridCartesian.cpp:62-118", "src/tools/Collector.h:149-165", "doc/Handbook.tex:1038-1071"]}
{"id": "C98", "title": "The global list of wave functions keeps what it lists alive and frees the rest", "statement": "The list owns a reference to every wave function in it: what it lists is alive, what is taken out or replaced is freed unless somebody else holds it, and clearing takes out exactly what is not persistent. Adding or setting a key makes it give that wave function and changes no other key; unnamed wave functions get keys of their own; keys in use and missing wave functions are refused by Add; GetCopy gives a new, equal wave function.", "quantifier": "all sequences of Add, Set, Get, GetCopy, Clear and reference operations, all keys, all wave functions", "why_tests_cant": "Lifetimes depend on the whole history of calls, on aliases and on keys that collide; a test sees a dangling pointer only by accident.", "anchors": ["src/GlobalWFList.cpp:20-120", "src/GlobalWFList.h:25-50", "src/tools/Collector.h:92-165", "src/qdlib/WaveFunction.h:16", "src/qdlib/WaveFunction.h:49-54"]}
{"id": "C99", "title": "The position operator multiplies by the coordinate", "statement": "After Init the operator multiplies every point of the grid by scale times the coordinate of the chosen dimension, or times the sum of all coordinates if none is chosen, and is hermitian. Negative dimensions, dimensions the grid does not have and wave functions that are not on a grid are refused, and stay refused. Emin and Emax enclose all values. Copies act as the original.", "quantifier": "all grids with up to MAX_DIMS dimensions, all ends and scales, all dimensions asked for, all wave functions, over any ordered field", "why_tests_cant": "A test uses one grid and mostly a scale of 1; strides, ends, bounds and copies are claims about all of them.", "anchors": ["src/qdlib/OGridPosition.cpp:12-119", "src/qdlib/OGridsystem.cpp:28-42", "src/qdlib/GridSystem.cpp:50-57", "src/qdlib/GridSystem.cpp:165-211"]}
{"id": "C100", "title": "Constants and the normalisation as operators", "statement": "The scalar operator multiplies every element by value + i im, 1 and 0 by default; its matrix elements are the constant times the scalar product; the absolute value lies between Emin and Emax; it calls itself hermitian only if it is; copies act as the original and other operators are refused. The normalise operator returns the wave function divided by its norm, which has norm 1 and is not changed by a second application, for all wave functions but 0.", "quantifier": "all constants, wave functions, weights and sequences of Init and Copy, over any ordered field", "why_tests_cant": "Tests give all parameters and a real constant; defaults, complex constants and the order of the calls are what they leave out.", "anchors": ["src/qdlib/OScalar.cpp:9-85", "src/qdlib/OScalar.h:27-53", "src/qdlib/ONormalize.h:26-58", "src/qdlib/WaveFunction.h:94-106", "src/tools/ParamContainer.cpp:223-234", "doc/Handbook.tex:754-762"]}
{"id": "C101", "title": "The kinetic energy with absorbing layers", "statement": "Applying the operator gives -1/2 sum 1/m_i P_i d_i P_i d_i psi over all dimensions with a mass that is not 0, linear in psi and hermitian without layers; with the conjugate flag the adjoint is applied. Missing masses are refused. No momentum of the grid has a kinetic energy above Emax. A second Init changes nothing, copies act as the original, other operators and other wave functions are refused.", "quantifier": "all numbers of dimensions, masses, derivatives, layer transformations, wave functions, over any ordered field", "why_tests_cant": "A test runs one wave packet into one layer; the adjoint, dimensions with mass 0 and copies are claims about all operators.", "anchors": ["src/qdlib/OGridPML.cpp:20-160", "src/qdlib/OGridPML.h:24-52", "src/qdlib/Operator.h:213-219", "src/tools/helpers.h:79-85", "doc/Handbook.tex:895-914"]}
{"id": "C102", "title": "The compression program converts wave function files and nothing else", "statement": "qdz compresses a wave function file, or all files of a series, with the chosen method, level and tolerance, or decompresses it; for one file the result goes to the output name and for a series every file is replaced by its own result. Without loss the wave function that is read back is the one written, with a tolerance it is within the tolerance. zlib is the default method, levels 0 to 9 and tolerances up to 1 are accepted and everything else is refused without touching a file. A run that did not do what was asked for ends with a status other than 0.", "quantifier": "all command lines, file systems, numbers of files in a series, wave functions, methods, levels and tolerances", "why_tests_cant": "The program has no tests; the defaults, the limits of the options and an unreadable file in the middle of a series are inputs nobody tries.", "anchors": ["src/qdz.cpp", "src/tools/Getopt.cpp", "src/qdlib/FileWF.cpp", "src/tools/FileSingle.h"]}
{"id": "C103", "title": "The reporter tells what the propagation did", "statement": "After every report the table has one line with the step, the time, the columns that were asked for (population, the populations of the states, energy, <Psi0|PsiT> or its square) under their titles and with their values, in the precision of the options. The spectrum is the transform of the recorded projections, with the window if asked for, on the axis of the discrete frequencies; a stationary state gives one peak at its energy. The file depends only on the run, it is reported if it cannot be written, and the closing message gives the number of steps made.", "quantifier": "all option sets, numbers of steps and of states, wave functions, initial states, early ends and restarts", "why_tests_cant": "Nobody compares the printed projection with its title or the frequency axis of an odd number of points with the definition; the rest of the buffer after an early end depends on the memory.", "anchors": ["src/Reporter.cpp:14-228", "src/Reporter.h:24-97", "src/ProgPropa.cpp:104-139", "src/ProgPropa.cpp:318-335", "src/math/math_functions.h:100-113", "src/fft/fft.cpp:57-70", "doc/Handbook.tex:262-270"]}
{"id": "C104", "title": "Temporary files are arrays on disk that vanish with their object", "statement": "Opening makes a new file of the size asked for, filled with zeros, and touches no other file. What is written at a position is read back from there, in the file as well as in mapped memory, whatever the size. Resize changes the size of the file and of the mapping and keeps the elements. If memory cannot be mapped there is an exception. After closing or destruction files, descriptors and mappings are as before, also after an exception, and an object without an open file touches nothing.", "quantifier": "all element sizes, sizes, positions, contents, sequences of calls, and all answers of the system", "why_tests_cant": "Files of 4 GiB, failing system calls, sequences of Resize with a mapping and descriptors reused after an error are not tried by tests with three integers.", "anchors": ["src/tools/TmpFile.h:19-283"]}
{"id": "C105", "title": "The logger writes every text once, in order, at its place and behind its indentation", "statement": "What is written to cout() appears exactly once, in the order of writing, at the place (console, file, stream) that was selected when it was written, each line behind two blanks per level of indentation and nothing in the middle of lines; debug texts appear exactly if debug output was on when they were written. While output is suppressed nothing appears, what was written before does. A second file is refused and the first one kept. No line of a header is longer than the line length if the title fits.", "quantifier": "all sequences of calls, texts, indentations, line lengths and titles, and all answers of the file system", "why_tests_cant": "The order of buffered texts, flushes, switches and indentation has unboundedly many interleavings, and a title of 77 characters starts a loop of 2^64 steps.", "anchors": ["src/tools/Logger.cpp:24-275", "src/tools/Logger.h:14-135"]}
{"id": "C106", "title": "FIFOs exist exactly as long as their objects", "statement": "A FIFO object makes the two FIFOs rx and tx, which did not exist before, and touches nothing else. If the constructor throws, the file system is as before. At any time the file system is what it was at the beginning and the two FIFOs of every living object, and after the last destructor it is as before. Destructors do not terminate the program. Objects without a given name get a unique one.", "quantifier": "all file systems, names, sequences of construction and destruction, and all answers of the system", "why_tests_cant": "Which FIFO cannot be made or opened, and the order of constructions and destructions of objects with the same or related names, cannot be enumerated.", "anchors": ["src/tools/FIFO.cpp:27-100", "src/tools/FIFO.h:20-55", "src/CmdHandler.cpp:254-278"]}
{"id": "C107", "title": "Moving in an input document meets every element once and nothing else", "statement": "A loop over the children of a node meets its element children, each once and in order, whatever comments, texts and instructions stand between them, also if there are none. Going down to the children of children visits the elements of the document from top to bottom. A section of a program is its first element of that name, or an exception if there is none. Attributes have the values of the document.", "quantifier": "all documents, names and attributes", "why_tests_cant": "Documents are trees of any depth with comments anywhere; empty elements and elements with comments only end in a null pointer that test inputs do not have.", "anchors": ["src/tools/XmlNode.cpp:34-160", "src/ChainLoader.cpp:57-146", "src/ChainLoader.cpp:320-349", "src/FiltersList.cpp:185-229", "src/ProgPropa.cpp:188-205", "src/ProgCfun.cpp:106-126"]}
{"id": "C108", "title": "The two small programs show stream files and translate inputs, and tell failures", "statement": "qdinfo shows the header of every stream file that qdng writes and of nothing else, and ends with success exactly then; other and damaged files are refused with a failure. qds2qdi ends with success exactly if it has written the translation of its input into the output file; nothing else is changed, and nothing at all after a failure.", "quantifier": "all command lines, files, wave functions and headers", "why_tests_cant": "Files may be cut or damaged at any byte; that every wave function written is shown needs all of them.", "anchors": ["src/qdng_info.cpp:27-89", "src/simpleXml/qds2qdi.cpp:33-69", "src/simpleXml/Simple2Xml.cpp:84-108", "src/tools/FileSingle.h:141-147"]}
{"id": "C109", "title": "Matrix operators act in the split operator through their eigenbasis", "statement": "Changing a wave function into the eigenbasis of a matrix operator and back, in any order and any number of times, keeps the state. One factor of the split operator multiplies each component in the eigenbasis by the exponential of its eigenvalue: eigenstates get exactly that factor, the norm is conserved for exponentials of absolute value one, factors add up, and the result is linear. Products of matrix and vector are right for all matrices, transposed or not.", "quantifier": "all matrices, vectors, wave functions in either representation, sequences of calls and exponents", "why_tests_cant": "Sequences of calls and matrices of all sizes are unbounded; the result must not depend on which eigenvectors LAPACK returns or on what the buffer held before.", "anchors": ["src/qdlib/TransformMat.cpp:19-47", "src/math/Matrix.h:304-342", "src/qdlib/WaveFunction.h:118-139", "src/qdlib/ODSpace.h:65-69", "src/qdlib/OGSPO.cpp:114-139"]}
{"id": "C110", "title": "Friction operators follow their formulas", "statement": "OGridStokesAlbrecht multiplies the displacement from the mean position by strength and velocity, and has no mean value; without recalculation it is linear with the old values. OGridStokes applies the documented operator g[c((xp+px)/2-<x>p)+(1-c)<p>(x-<x>)]. OGridGStokes adds the momentum -6 pi eta R dt G p to the state and keeps the density, however often it was initialised with the wave function. Missing or unusable parameters are refused.", "quantifier": "all wave functions, hermitian operators, matrices, parameters, numbers of initialisations and dimensions", "why_tests_cant": "The operators are not linear: values for some states say nothing about others. Wrong signs and norms vanish for symmetric or normalised examples.", "anchors": ["src/qdlib/OGridStokes.cpp:22-138", "src/qdlib/OGridStokes.h:17-21", "src/qdlib/OGridStokesAlbrecht.cpp:27-92", "src/qdlib/OGridGStokes.cpp:49-249"]}
{"id": "C111", "title": "Error messages show what went wrong", "statement": "The message of an error contains every text and name it was made from, in their order, and its number in decimal notation. Errors of one kind with equal messages were made from the same texts, names, numbers and system errors.", "quantifier": "all kinds of errors, texts, names, numbers and system error codes", "why_tests_cant": "That two different errors never share a message is a statement about all pairs of texts and numbers; tests compare a few messages with expected ones.", "anchors": ["src/tools/Exception.cpp:15-108", "src/tools/Exception.h:36-171"]}
{"id": "C112", "title": "Configuration files are read once and in layers", "statement": "The global parameters are those of .qdconfig in the current directory and, where that file is silent, those of .qdconfig in the home directory; files that can be read are read, missing ones are passed over, and starting is defined in every environment. All callers see the same parameters until they are destroyed.", "quantifier": "all environments, file systems, contents of both files and sequences of calls", "why_tests_cant": "Tests run with one home directory and seldom with two configuration files; files without write permission or an unset HOME do not occur there.", "anchors": ["src/tools/GlobalParams.cpp:11-37", "src/tools/ParamContainer.cpp:785-796", "src/tools/fstools.cpp:118-133", "src/qdng.cpp:169"]}
{"id": "C113", "title": "Shared variables act atomically", "statement": "However the threads are interleaved, the operations on a shared variable act as if one came after the other in an order that keeps the order of each thread; additions are not lost, and every operation returns the value it made or found.", "quantifier": "all numbers of threads, programs of the threads and interleavings", "why_tests_cant": "Lost updates and returned values of other threads need rare interleavings; tests see a few schedules of one machine.", "anchors": ["src/tools/SharedVar.h:19-94"]}
