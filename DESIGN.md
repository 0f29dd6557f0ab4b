# Formal model of QDng in Rocq/Coq

## Layout

* `properties.jsonl` – the properties, in English.
* `rocq/theories/Base.v` – outcome type shared by all models (`Ok`, `Throw` = C++ exception, `UB` = undefined
  behaviour, `Diverge` = endless loop) and small helpers.
* `rocq/theories/Model/*.v` – transcription of the C++ functions; each definition cites file and lines.
* `rocq/theories/Spec/*.v` – small specifications, written without reference to the model.
* `rocq/theories/Proofs/*.v` – lemmas.
* `rocq/theories/Props/*.v` – the property theorems (each closed by `exact lemma.`), `Print Assumptions`, and a concrete
  `Example` meeting the hypotheses.
* `MANIFEST.json` – property → theorem names; `seeded/LOG.jsonl` – mutation tests of the theorems.

Conventions: a theorem for property Cnn starts with `Cnn_`.  `_refuted` = the property as stated is false of the code, with
a concrete witness (a finding).  `_partial` = only part of the property (usually: the property under the extra hypothesis
that excludes the finding).

Numeric algorithms (inner products, Runge-Kutta, Chebyshev, stencils…) are modelled over an arbitrary commutative ring
or module instead of IEEE doubles; rounding is out of scope.  Integers are Z/N/nat, with wrap-around modelled where
the property depends on it.  Bytes/characters are `ascii`, C++ strings are lists of them.

## Plan per property

| id | what is modelled | how proved |
|----|------------------|-----------|
| C01, C02 | `trim`, `Type2String`, `String2Type`, `Parse`, `Write` on character lists | round trip by induction over the sorted entry list; typed version has a finding (`substr(tpos1+1,tpos1)`) |
| C03 | container as two association maps, `operator+=` loop | extensional lookup law |
| C04 | `Parse` as loop over `istream::getline` with failbit | termination measure for lines < 2048; divergence witness |
| C05 | `trim` | equality with independent spec `strip`; all-blank finding |
| C06, C07, C08 | `SetValue/GetValue/SetArray/GetArray`, decimal printing and `sscanf("%d")` | round trip induction; finding for C08 |
| C09–C11 | allocator state machine, posix_memalign as oracle | invariant over all histories; findings for C10, C11 |
| C12 | `ReadFromString` | computation on arbitrary digit strings |
| C13 | `Collector` as map object → count | refinement to history counting |
| C14 | `Getopt` maps | invariant / finding |
| C15–C17 | index arithmetic of `GridSystem`, `VectorView`, `FFT::_CreatePlanDim` | mixed radix arithmetic, bijection |
| C18, C19 | integer frequency index | arithmetic; finding for C19 |
| C20, C21 | `HOFD` loops over a ring | loop = stencil sum; finding for C21 |
| C22, C23 | `WFBuffer` state machine with disk | refinement to a map; finding for C23 |
| C24–C27 | meta/stream formats as token streams, serialisation as byte streams | round trip induction; findings |
| C28, C29 | state table with fixed capacity | invariant; ring algebra |
| C30–C33 | operator lists, sum, product, matrix operators over a module | loop = sum / composition |
| C34, C36 | propagator exponent, exponential cache | invariant over histories |
| C35, C37, C38 | integrators over a module with linear operators | algebra by induction |
| C39, C40 | projection, jump selection | algebra; order reasoning |
| C41–C44 | program level: chain loader, run loop, filters, registry | loop invariants; findings |
| C45 | simplified XML input: tree actions and escaping | refinement to a tree semantics |
| C46 | varint encoder/decoder | round trip induction |
| C47 | SIMD lanes as pairs/quadruples over a ring | ring equations; findings |
| C48–C55 | small numeric components | loop specifications; findings |
| C56 | chunked stream copy | induction over bytes; size 0 finding |
| C57 | clock | arithmetic over Q, witness in SpecFloat doubles |
| C58, C14 | `Getopt::GetNonOption` over argv and optind | case analysis; finding |
| C59, C60 | mixed derivatives, coefficient tables | loop analysis; exactness on polynomials by computation in Q |
| C61 | `Laser::PowerSpectrum` index sets | arithmetic; finding |
| C62 | `DeSerialize` over arbitrary byte streams | case analysis on the length fields; finding |
| C63 | `LoadWFMultimap_` | fold invariants; finding |
| C64, C65 | file type detection; the flex scanner as longest match over the rules | induction over the text; findings |
| C66 | server and client of the interactive mode as two processes with FIFOs | step relation, all interleavings; findings |
| C67 | run loop over an XML tree, directory and parameter handling, exit status | refinement to a plan of actions |
| C68 | `ProgCfun` | fold invariants, refinement to the list of scalar products; findings |
| C69 | `ProgFilter` on the files of `ProgPropa` | arithmetic on file numbers; findings |
| C70 | `ostream <<`/`sscanf` of doubles on SpecFloat | error analysis in Z/Q; findings |
| C71, C72 | `ProgEigen` | invariant "orthonormal list", roots of unity; findings |
| C73 | `OGridGMat` | refinement to -1/2 sum d_r G_rs d_s over a module; findings |
| C74 | `Vector` | heap model with ownership; simulation of a store of plain values by induction over the calls; leak counts; findings |
| C75–C78 | `ProgOCT`: propagations, field update, iteration methods, loop | loop invariants; fixed point equation over trajectories, course of iterations; findings |
| C79–C80 | `FindOperatorType`, choice of the lasers in `ProgOCT` | induction over operator trees; findings |
| C81 | vector, space buffer and FFT object of grid wave functions | simulation between a heap with raw pointers and pairs of vectors, separation of the storage of different wave functions; findings |
| C82 | momentum space tables of Diff, OGridNabla, OGridNablaSq | views of Model/Grid.v against coordinates, energy bounds over Q; findings |
| C83 | application of derivative operators in momentum space | programs on the wave functions of C81, simulation down to the heap; findings |
| C84 | `diag22symm`, potential step of `OSPO` | ordered fields with exact roots, instance: the real numbers; findings |
| C85 | `OSPO` | invariant over histories of calls, inverse steps; findings |
| C86 | `OGobbler` | loop invariants over views, rational functions; findings |
| C87 | `OGridKick` | loop invariants, character laws of the plane waves; findings |
| C88 | `OGridPotential`, reading part of `FileSingle` | case analysis of the nested Init over all file systems, energy bounds by induction; findings |
| C89 | `OGridDipole`, `OLaser` with one laser, `Laser` | equations of the call sequence, order arguments for bounds and pulses; findings |
| C90 | `OArnoldi` | loop invariant of the orthogonalisation, Krylov relation for polynomials, agreement of two runs; findings |
| C91 | `OHermitianMatrix` (Init, Emin, Apply, exponents), `OMatDipole` | one lemma about every Init with a file, order lemmas for the bounds; findings |
| C92 | `FS` | induction over the length of the path for trees of nodes, invariant of the tree; findings |
| C93 | `ODMultistate`, `TransformMSD` | loop invariants to a closed form, then linear algebra of orthonormal eigenvectors over any ordered field; findings |
| C94 | `ModuleLoader`, `InternalMods`, the module list of the build | case analysis on the compiled in names, induction over request sequences; findings |
| C95 | `OGridNAC` | loop invariant to the symmetrised sum, then module algebra over any ordered field; findings |
| C96 | `OLaser` with two lasers, `OGridRaman` | refinement of reading, clock and application to the product of both fields; findings |
| C97 | `OFlux` | induction over the grid points to the integral, first order change of the weight, conservation from hermiticity; findings |
| C98 | `GlobalWFList`, `Collector` | invariant on owners and reference counts over all programs; findings |
| C99 | `OGridPosition` | induction over the dimensions with the invariant of the view (C14 model); findings |
| C100 | `OScalar`, `ONormalize` | elementwise refinement, scalar products by induction; findings |
| C101 | `OGridPML` | induction over the dimensions in a module; adjoint and hermiticity from the laws of the scalar product; findings |
| C102 | `qdz` (the compression program) | induction over the files of a series, case analysis of the options; findings |
| C103 | `Reporter` (table and spectrum) | induction over the reports, sums of roots of unity; findings |
| C104 | `TmpFile` (arrays on disk) | invariant over all sequences of calls, byte-wise laws of files; findings |
| C105 | `Logger` | refinement: buffered streams against what each call means, for all programs; headers by the lines of the text; findings |
| C106 | `FIFO` | invariant over all programs: what exists belongs to an object or was there before; findings |
| C107 | `XmlNode` and the loops of its users | induction over documents; elements only as specification; findings |
| C108 | `qdinfo`, `qds2qdi` | runs of main over files; composition with the writer of C24; findings |
| C109 | `TransformMat`, `MatVecMult`, `WaveFunction::IsKspace` | wave function and buffer; algebra in the eigenbasis; findings |
| C110 | `OGridStokes`, `OGridStokesAlbrecht`, `OGridGStokes` | algebra of expectation values; findings |
| C111 | `Exception` and the classes derived from it | message as a function of the constructor call; splitting at separators; findings |
| C112 | `GlobalParams`, `ParamContainer::ReadFromFile` | outcome of parsing (C01, C04) composed over two files; findings |
| C113 | `SharedVar` | small steps of threads, invariant with a log of the stores; findings |

## Trusted base

* the Coq 8.16.1 kernel (including `vm_compute`, used in examples and table checks);
* the transcription of the C++ text into the `Model` files (each definition's comment gives file and lines);
* what `Print Assumptions` lists: *Closed under the global context* for every property theorem, except
  those of C84 about the real numbers (`C84_step_refuted`, `C84_step_partial`, `C84_norm`, `C84_group`, `C84_degenerate_code`) and the examples `C87_law_ex`, `C89_laws_ex`, `C90_projection_ex` and `C93_laws_ex`, which list the
  axioms of the standard library's real numbers: `ClassicalDedekindReals.sig_not_dec`, `ClassicalDedekindReals.sig_forall_dec`,
  `FunctionalExtensionality.functional_extensionality_dep`.  (`coqchk -o` also shows
  the opaque constants of the module type inside the standard library's `Coq.ssr.ssrunder`; no theorem depends on them.)

There are no axioms of our own.  Parts of the environment are *oracles*: universally quantified functions, sometimes with a
contract stated as a hypothesis of the theorem.  They are part of the statements, not of the trusted base, but they say what is
not modelled:

| component | oracles and simplifications |
|-----------|-----------------------------|
| all numerics | exact arithmetic in any commutative ring/field/module; rounding only in C57, C70 and the loops of C45 (SpecFloat, correctly rounded); source and result vectors distinct unless an in-place form is stated; OpenMP loops sequential; disk swapping of grid vectors (`RetireStorage`) left out |
| parameters (C01–C08) | a file is a list of characters, `istream::getline` by its standard semantics; `%d`/`%lf` as specified by the C standard, no hex/inf/nan, no incomplete exponents (C70) |
| memory (C09–C12) | posix_memalign as oracle returning fresh aligned blocks |
| command line (C14, C58) | getopt(3) as specified, `optind` given |
| grid, views, FFT plans (C15–C19) | FFTW's guru plans by their documented index semantics; transforms as linear oracles with inverse contract |
| SIMD (C47) | intrinsics by Intel's documented lane semantics |
| buffer (C22, C23) | disk as a map, without I/O errors; states of the wave functions as values |
| wave function files (C24, C25, C27) | protobuf header codec, Serialize/DeSerialize of single states, libz/libbz2 as oracles with round-trip contracts; files as maps from names to bytes |
| operators (C30–C33, C37–C40, C52) | contained operators are arbitrary (linear where said) maps; operator buffers hold arbitrary junk; one MPI process; `RecalcInternals` left out; norms, scalar products, Bessel values, LAPACK and convergence tests are oracles |
| registry, chain loader (C41, C44, C63) | loading from files as oracle; the operators' Init does not re-enter the registry |
| propagation, filters (C42, C43, C69) | filters, reporter and propagator as functions on wave functions; writing does not fail (unless stated); the propagator leaves the clock alone |
| simplified input (C45, C64, C65) | flex longest match semantics, one yyparse call, printf formats of loop numbers as oracle; uninitialised memory as an arbitrary oracle |
| interactive mode (C66) | messages as units in two FIFOs, the work of a command as an oracle on the world, data streams all or nothing |
| run loop (C67) | libxml2's tree is given; loading and running of a program as oracle; an attribute's text is its first text node |
| correlation functions (C68) | propagator and operators as functions of the clock step, buffer as a list |
| eigenfunctions (C71, C72) | norms and distances as oracles, LAPACK with the contract "orthonormal eigenvectors", `cexpI(2 pi q)` with the root-of-unity contract, window/transform/peak search as one oracle; files written before an exception left out |
| G-matrix (C73) | derivative, stencil, layer transformation and file reading as oracles; dynamic_cast failures left out; energy bounds over Q in units of pi^2/2 |
| vectors (C74) | one process, allocations succeed, blocks never reused, fresh storage arbitrary (oracle), the three pointer arrays of a vector counted as one; OpenMP loops sequential; BLAS style free functions left out |
| optimal control (C75–C78) | propagator, gobbler + normalisation, coupling, scalar product, target operators, filters and the yield are oracles; wave function buffers are exact arrays (entries never set are UB to read); statements for all targets within one time step are grouped; nan checks, laser objective and log left out; `FastCopy` for lasers of equal size only |
| operator search (C79–C80) | operators are trees of nodes with an identity for pointer comparison; `CheckLabel` is a predicate of the identity; flags kept by the packages (hermitian, conjugation) left out |
| representations (C81) | FFTW by its manual: a plan transforms what its pointers point to, planning overwrites both arrays unless the mode is ESTIMATE or wisdom is there, wisdom is per shape, dimension and direction; the transform itself is an oracle which keeps the length; one stride, one process, blocks never reused |
| derivative tables (C82) | numbers of a field for double; the parameter file is read (values given); fresh storage arbitrary (one value); HOFD method left out |
| derivatives (C83) | the transforms are an oracle that is inverse up to the number of points; tables have the size of the grid; codelets without SIMD (C47 relates them); HOFD method and dynamic_cast failures left out |
| split operator (C84, C85) | exact numbers of an ordered field for double, `sqrt` exact where it is called (or the real square root), `cexp` and the transforms as oracles; potentials are real, given by their values at each time step (`UpdateTime` of the operators left out); wrong types of operators and wave functions, the Hamiltonian `_H` and `Copy` left out; the real part of uninitialised memory is an oracle |
| absorbers, kick (C86, C87) | exact numbers (rationals with a not-a-number value for C86, ordered fields for C87); parameters already read; `exp` as an oracle with exponential laws where said |
| potentials from files (C88) | ordered field for double; a file is a meta record with values or a stream with grid and values (their bytes: C25, C26, C62); fresh storage reads as zeros; products of sizes do not overflow |
| dipoles and lasers (C89) | ordered field for double, a field value that is not a number is `None`; exp, cos and the two default constants are parameters; one laser; a laser file is its samples and step (reading: C88's file systems); writing a generated laser (`lasero`) left out; the clock is one shared object |
| Arnoldi propagator (C90) | a field for dcomplex, wave functions a module; scalar product, norm, the underrun test, the error estimate, eigenvalues and the inverse of LAPACK are parameters, constrained in the statements only; disk storage of the buffer left out (C22) |
| matrix operators from files (C91) | an ordered field for double; eigenvalues of LAPACK and the content of new matrices are parameters; eigenvectors only as present or not; the laser comes from a file (generated pulses: C89) |
| file system helpers (C92) | POSIX stat, mkdir and remove over a tree of files and directories are part of the model; no symbolic links, no limits of names, one process |
| operator matrices in the split operator (C93) | LAPACK's eigenvectors and the exponential are section variables with their guarantees as hypotheses; elements are their diagonal, their present factor and their transformation; k-space flags of the wave function left out |
| module loader (C94) | wordexp, dlopen, dlsym and QD_MOD_PATH are one record of oracles; library handles not kept, use counter unbounded; names with NUL characters left to the oracles |
| non-adiabatic coupling (C95) | multiplication with a grid function and derivatives are section variables, with linearity, product rule, antisymmetry and bounds as hypotheses where needed; potential files an oracle; exact numbers |
| Raman coupling (C96) | polarisability and laser files oracles as in C88 and C89; exact numbers; the exponential is the list of its exponents |
| flux (C97) | wave functions are lists with one weight for the scalar product; operators of the list are functions, their Init is not part of the model; after an exception the buffer is taken as retired |
| list of wave functions (C98) | wave functions are addresses with a count and owners; addresses are never reused, destructors of nested wave functions and `PrintList` are left out; exceptions leave the state |
| position (C99) | exact numbers with one value for not-a-number |
| scalar, normalize (C100) | wave functions are lists with one weight for the scalar product; exact numbers; `sqrt` is a function with the root law for the number it is used on; of OScalar's buffer only the size |
| layered kinetic energy (C101) | wave functions are elements of a module over the reals; derivative and layer transformation are oracles (C48 has the layer); Emin, parameters of layers and differentiator are left out; addresses are not reused |
| compression program (C102) | wave functions are abstract; reduction, restoring, `getopt(3)`, the scan of floating point numbers and permissions are oracles; unreadable files give an exception, writing to an open file does not fail, the files of a series are of one kind |
| reporter (C103) | wave functions are abstract; norm, energy, scalar product, modulus, cosine and phases are oracles; exact numbers; a cell is a number with its format, tabs and indentation are left out; the transform is the exact forward sum |
| temporary files (C104) | Linux with 4096 byte pages; files have one name and are not removed by others while open; `mkstemp`, free space and the addresses of `mmap` are oracles; transfers are cut at 2147479552 bytes and not interrupted; mapped memory is used within the file |
| logger (C105) | one thread, no MPI; places are tags; writing to a place always succeeds; counters do not overflow; whether a file can be opened is an oracle |
| FIFOs (C106) | names only, no directories; `mkfifo` and opening are oracles that depend on the name; what exists can be removed; what is sent over a FIFO is in C66 |
| documents (C107) | the tree of libxml2: elements, texts, comments, CDATA, instructions; attribute values are lists of parts; what is done at the nodes is left out |
| small programs (C108) | protocol buffers as a decoder that may fail, their text format as a function, the parser of the simplified input as a function; messages are left out |
| eigenbasis of matrix operators (C109) | exact numbers, LAPACK's eigenvectors as a hypothesis (`eigenbasis`), one stride, buffer and wave function in distinct memory; the order of several factors is that of C35 |
| friction operators (C110) | exact numbers, wave functions as functions on n points, position, momentum and kinetic operator as functions (their code is modelled in Model/Position.v and Model/Spectral.v), the sigmoid as a function; the operators are part of the library but no module creates them |
| error messages (C111) | an error is the constructor call that made it; pointers end at the first zero character; doubles printed as in C70 (finite ones); error numbers of Linux |
| configuration files (C112) | for each name what `stat` and `open` find, fixed during a call; the container kept after an exception is left out |
| shared variables (C113) | exact integers, sequentially consistent loads and stores, locks that exclude each other; the class is installed with the library but not used by it |

Not modelled at all: threads, MPI.

## Findings

A theorem named `_refuted` proves that a property as stated is false of the code; the `_code` theorem beside it says what the
code does instead.  The notes in `MANIFEST.json` summarise them per property.  In addition, these were seen while reading:

* `WFGridSystem`: `Restore` as the first transform of a shape loses what was read (planning overwrites it); a wave function that was transformed must not change its size or shape (C81).
* `Diff`: a dimension chosen with `Dim` gets no table; the mixed table holds only the wave number of the second dimension; the collective table is always the second derivative; tables keep the size of the first grid (writing behind the end on a larger one) (C82).
* `OGridNabla`: `Emax` is the smallest wave number (or 0); the exponential has the wrong sign, an uninitialised real part and ignores the momentum setting; `Copy` drops the dimension; with `Conj` the momentum operator changes its sign although it is hermitian (C82, C83).
* `OGridNablaSq`: negative masses are left out in `Emax` but not in the table (C82).
* `diag22symm`: for equal diagonal elements and a negative coupling the eigenvectors are exchanged; `OSPO` propagates such points with the absolute value of the coupling (C84).
* `OSPO`: the exponent is fixed at the first `Init`, turning the direction later has no effect; at step zero the potential can be that of the step of `Init`; two potentials without a coupling are exponentiated twice, with uninitialised memory as the coupling; `VcoupI` is ignored with two states; after an `Init` that threw, the next one returns at once; `UpdateTime` dereferences a missing `Vcoup`; `Apply(dest, source)` does nothing (C85).
* `OGobbler`: see the notes of C86; its AVX codelet for complex times real is broken (C47).
* `OGridPotential`: the "is being read" flag survives an exception; the size loop looks for `N0` in every turn; operators read from a meta file lose the parameters of the user, those read from a stream keep them (C88).
* `OLaser::Clock` looks for `scale` in the parameters of the operator, which also scale the dipole: a dipole from a stream is scaled twice; `Emax` of `OGridDipole` takes the largest, not the largest absolute values, and `Emin` is 0, which makes `setzero` inert; a second Init keeps the old laser; `Laser::operator=` loses the scale and `Copy` the parameters of a pulse; with fewer than 8 steps the default width of a pulse is 0 and the field not a number (C89).
* `OArnoldi`: `_order` is not reset, so an eigenvector as start leaves the number of vectors of the call before; the last column then belongs to an old vector and the matrix may not be diagonalisable. The wave function is not normalised, so the projection is wrong for norms other than 1. `Copy` copies neither `_order` nor the buffer nor `_conv` (a copy throws on an eigenvector), and dereferences `buf0` of an operator not yet used (C90).
* `OHermitianMatrix::Init` looks up `setzero` after reading, when the parameters are those of the meta file; a stream leaves `_valid` set, so an operator used before is lowered by an eigenvalue of its old matrix; after `setzero` the exponents are those of the matrix before the shift; `_init` stays set after a failed read, so the operator never reads a file again; with `qdiag` `_X` is allocated without telling `_XT`. `OMatDipole`: `setzero` takes away the eigenvalue times the lowest field because Emin is virtual; Emin and Emax lack the minus sign of the coupling; the scale of the own parameters is lost with a meta file; a wave function of another size is ignored silently (C91).
* `FS::StripLast` reads out of bounds for "" and paths with nothing but slashes; `FS::CreateDir` throws for a component "." or ".." below a missing directory ("out/./run"), after making part of the path; `FS::IsDir` throws for a missing path where `IsFile` returns false (C92).
* `ODMultistate`: states of different size are not refused (the size of state 0 is compared with itself) and the step leaves the arrays; dipole couplings are exponentiated without their field and never again after the first time; only the upper triangle of the matrix counts; a missing diagonal element counts as zero (with "unity" it should be one) or, in a diagonal matrix, is a null pointer; couplings next to transformed diagonal elements are accepted and ignored; a state without a transformation next to others has an uninitialised pointer; the normalisation of state 0 is used for all states (C93).
* Module loader: the command that reads an operator asks for its class name ("OSum"), under which no operator is found; QD_MOD_PATH is put before the file name without a slash; the system search leaves out ".so"; operator names of the input are given to wordexp, which runs command substitutions, and its failure is ignored (uninitialised words); an empty modpath is read out of bounds; the module of Jump is not built (C94).
* `OGridNAC`: one dimension without a mass reads another file than the one given; applying or copying before Init with a wave function uses null pointers; Emax uses the largest element instead of the modulus (0 for a coupling that is nowhere positive), Emin is always 0; given in one place of a hermitian multi state operator, the other place gets the same operator instead of its adjoint, which makes the matrix anti-hermitian (C95).
* `OGridRaman`: the coupling has a factor -1/2, the exponential -1, so both disagree with each other and with the handbook; with a scale both lasers are scaled again; Emin = 0 lies above a negative coupling's energies; copies lose the scales of the lasers (C96).
* `OFlux`: T psi is conjugated instead of psi, so the value is the weight flowing in, minus the handbook's outgoing flux; a wrong number of operators is refused only by the first Init; copies have no buffer until Init (null pointer), copying into an operator that was set up keeps the old constant wave function (read out of bounds for a larger one) and copying another kind of operator calls a method of a null pointer (C97).
* `GlobalWFList`: storing a wave function under the key it already has destroys it while it stays listed; a generated key `__Name#n` can replace a wave function stored under the same given key, which then leaks; a wave function stored with the empty key cannot be found with it (C98).
* `OGridPosition`: a dimension with one point gives not-a-number; after refusing a dimension that the grid does not have the next Init succeeds with a table of zeros; `dim = INT_MAX` overflows; Emin and Emax ignore the scale and read in front of the dimensions if no dimension was given and in copies, which lose dimension and scale (C99).
* `OScalar`: without `value` the constant is 0, not the documented 1.0; a complex constant calls itself hermitian; MatrixElement and Valid before Init(Psi) use a null pointer (C100).
* `OGridPML`: a mass 0 divides by 0 instead of leaving the dimension out; fewer masses than dimensions are read out of bounds; with the conjugate flag the layers are conjugated but not moved in front of the derivatives, so the result is not the adjoint; the flag is not copied; copying an operator that was not set up calls a method of a null pointer; a refused copy leaves freed buffers (C101).
* `qdz`: without `-m` every compression is refused, since the default method is neither of the two accepted ones although the help calls zlib the default; method `j` writes zlib; the level is never used and the documented level 0 is refused; negative tolerances pass the limit; a tolerance or level that is not a number is read uninitialised; without a file name the program ends with status 0; the first unreadable file of a series ends the run with status 0 and the rest is not converted; a file that cannot be opened for writing closes a null stream (C102).
* `Reporter`: the column `<Psi0|PsiT>` prints the complex conjugate, `<PsiT|Psi0>`; with norm and energy switched off projections have one decimal only; the spectrum of a single step is divided by 0; with an odd number of points the middle line of the spectrum has the frequency -(N+1)/2 dw; after an early end the rest of the buffer is transformed uninitialised; if the spectrum file cannot be opened, `throw;` without an exception terminates the program; the closing message gives the number of steps asked for, not made (C103).
* `TmpFile`: a file whose bytes are a multiple of 4 GiB cannot be opened (the result of `lseek` is kept in an int and looks like -1), and the empty file stays; one read or write of more than 2147479552 bytes is an exception; after `Open` with a size the position is at the end; a failed `mmap` is returned as a pointer (compared with NULL, not MAP_FAILED); `Resize` does not update the size, so going back to the first size is ignored, too few or too many pages are unmapped at the end; after an exception in `Seek`, `Read` or `Write` the file is never removed, and the closed descriptor is still used, even if it belongs to another file by then (C104).
* `Logger`: a line that is flushed before its end is indented again in the middle; an empty text gives blanks; switching debug output, `FileOutput`, `SetRedirect` act on texts written before and still waiting; headers appear although output is suppressed; after suppression the indentation of a forgotten text comes out; section titles of line length - 3 to line length characters and chapter titles longer than the line write about 2^65 and 2^63 characters, as unsigned differences wrap around (C105).
* `FIFO`: if the second FIFO cannot be made the first one stays, if one cannot be opened both stay, and the name can never be used again; the "unique" name is the template `QDng_cmd_XXXXXX` itself, so a second object always fails; a FIFO removed by someone else makes the destructor throw, which terminates the program (C106).
* `XmlNode`: `GridSum`, `Multistate`, `DMultistate`, `LC`, `Multimap` and the bra and ket of `cfunc` without an element child use a null pointer, as do sums, products and propagators with comments only, and every program without children (instead of the exception for the missing propagator); a processing instruction is taken for a section of its name; attribute values with references to entities are cut behind the first part (C107).
* `qdinfo` shows headers that cannot be parsed with success, uses uninitialised memory if a file ends within its header, reads behind its memory if the first 16 bytes have no zero, and is terminated for negative sizes; `qds2qdi` ends with success without an input file and empties an existing output file if the input has errors (C108).
* `MatVecMult` writes or reads outside memory, or leaves part of the result unset, for matrices that are not square; vectors of another size are skipped without a word; `TransformMat` follows a null pointer if the matrix was never set (C109).
* `OGridStokes` adds `<p><x>` where its documentation subtracts it, and uses memory that was never written if there is no slope; it and `OGridStokesAlbrecht` divide expectation values by the norm instead of its square; `OGridGStokes` multiplies its strength by the time step at each initialisation and follows null pointers if the wave function has more dimensions than "dims" (C110).
* The parameters given to an `EParamProblem` as missing can be read by nobody and are not part of its message; a parameter's text is put behind the message without a separator ("Unknown laser typepulse"); a missing file (`ENOENT`) has no text of its own and cannot be told from other errors; doubles are told with six digits (C111).
* Reading the configuration file of the current directory removes all settings of the one in the home directory; a configuration file without write permission is ignored silently, because it is opened for reading and writing; without the variable `HOME` a string is made from a null pointer; if the home directory cannot be searched, `qdng` ends with an exception nobody catches (C112).
* With OpenMP `SharedVar` initialises a lock through a pointer that was never set; without OpenMP it has no lock and loses updates; even with a working lock its operations return the value read after the lock was given back, which may be that of another thread (C113).
* `OHermitianMatrix`: `setzero` is looked up after reading, so it is lost with a meta file, and works on the eigenvalues of the previous matrix with a stream.
* `Diff::DxDy`: the second forward transform starts from position space again, so only one dimension is transformed; for odd order one factor i is missing (C83).
* `ProgPropa`: `UseRenormalizedValues(~ _H->Hermitian())` – bitwise not of a bool, always true.
* `GridSystem::LowOthers(dim1, dim2)` always returns 1.
* `OProjection`: a non-positive inverse projector adds states instead of removing them.
* matrix files lack the number of columns; `WriteMeta` builds an `EIOError` without throwing it.
* `OGridHOFD` copies lack the stencil and the masses; `OGSPO::Valid` is always false.
* `WFGridSystem::Reduce` leaves a stale buffer; `Laser::GetVectorPot` ignores the scale factor.
* `VectorView::Sum` has no return statement; the AVX codelets cannot be compiled.
* `LapackDiag.cpp`: the work array for hermitian matrices has half the size zheev is told it has.
* `Vector::StrideCopy` accepts `dest == nstrides` (one stride behind the end).
* `GridSystem::InitFromParamContainer` checks only the presence of `N0`.
* `qdz`: the default method and level 0 are refused.
* `qdng.cpp`: `debug` and `modpath` are looked up before the document is read; the XML buffer handed to the parser is not terminated.
* `XmlNode::FindNode` compares names without looking at the node type (a CDATA node has no name).
* `ProgEigen::WriteEnergyFile` uses `throw;` without an active exception; `ac` without peaks and with `diag` throws.
* `Diff.cpp`: with a dimension given the loop over the dimensions is empty; `DnDxn` multiplies with the prefactor, `DnDxnAdd` does not.
* `ProgOCT`: `_Coup`, `_U`, `_nlaser` are not initialised, the destructor deletes `_Coup` even when `Run` threw before finding it; an empty `dir` is indexed at -1; the laser objective of Krotov lacks the number of targets.
* `MAX_OPS` is 128 in `OList.h` and 16 in `OGridSum.h`: the layout of `OSum` depends on the order of the includes (`OSPO.cpp` allocates a shorter one than its constructor fills).
* `PML.cpp`: `dim > val.size()` should be `>=`; a map of 0 means both sides.
