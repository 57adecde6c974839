# Formal model of cqcpy in Rocq (Coq 8.16.1)

## 1. What is modelled, and how

| source file | model | technique |
|---|---|---|
| `cqcpy/cc_energy.py`, `cqcpy/cc_equations.py` | `CCProg*.v`: every function as a term of a small Python syntax (`PySyntax.v`), produced mechanically by `tools/py2coq.py` from the Python `ast`; semantics in `PySem.v` over the NumPy model `Tensor.v` | deep embedding, symbolic execution proved sound, certificate-checked polynomial normal forms |
| `cqcpy/spin_utils.py`, `utils.py`, `ov_blocks.py`, `test_utils.py`, `integrals.py` | `SpinModel.v`, `UtilsModel.v`, … : one Gallina function per Python function over the same NumPy model | direct proofs |
| `cqcpy/ci_utils.py` | `CIModel.v`: one Gallina function per Python function | induction, Fock-space specification |
| `cqcpy/ft_utils.py` | `FTModel.v` over the standard library reals | analysis with `Reals` |

### 1.1 NumPy model
A tensor is a shape (`list nat`) and a function from index lists to ring
elements; two tensors are equal (`teq`) when their shapes are equal and they
agree on every in-range index. Scalars are an arbitrary commutative ring with
an element 1/2 (a record with Leibniz equality; instances: rationals `Qc`, the
reals, complexification, dual numbers). The array functions are
modelled in exact arithmetic: all constants in the code are dyadic, so they exist in such
a ring. Rounding is treated separately: C79 and C80 for `ft_utils.py`, C85 for `cc_equations.py` and `cc_energy.py`. Shape errors are `None`. Broadcasting is only modelled for scalar times array.

### 1.2 Mini Python
Statements: assignment, tuple unpacking, `+=`/`-=`, `del`, calls, attribute
assignment, `return`, `raise`. Variables hold numbers, tuples, objects with
attributes or *references* to arrays in a heap: `x = y` aliases, `x += e` and
`x -= e` update the array in place, a computed expression allocates. So
"the arguments are not modified" is a statement about the final heap.
Deliberate simplifications: a transpose is a fresh array (NumPy returns a
view; no view is ever updated in place in the code, which the translator
checks), `astype`/`copy` are both a fresh copy, `fac` keeps its default 1.0 (as in every call in the repository) except in C86, which states what each building block does with an explicit `fac`.

### 1.3 Symbolic execution and checking
The interpreter is written once over an abstract tensor algebra. The concrete
instance is the semantics; the symbolic instance computes polynomials (sums of
monomials in the input tensors with summed indices). A simulation theorem
relates the two for all sizes. Equality of two symbolic results is decided by
renaming summed indices (certificates found by an untrusted search, checked by
a verified checker), applying declared tensor symmetries, and adding
coefficients. Spin: sums over spin orbitals split into alpha and beta parts.

### 1.4 Function by function
* `cc_energy.py` (9 functions) and `cc_equations.py` (107 functions, including the underscored ones): all translated into `CCProg.v`, 116 terms of the mini Python. Public functions with their argument layouts are listed in `CCShapes.public_functions`.
* `ci_utils.py` (38 functions and methods): `CIModel.v` (lines 1–416, 1272–1559) and `CICfromT.v` (`gmakeCfromT`, `makeCfromT`, lines 418–1269); the aliasing of occupation arrays is modelled a second time with an explicit heap in `CIHeap.v`. Orbital indices are natural numbers (negative Python indices are not modelled); coefficient vectors are over any commutative ring with the inverses that the code divides by (the code allocates float arrays; what that does to complex input is modelled in `DtypeModel.v` and `DtypeCfromT.v`, C102).
* `ft_utils.py` (10): `FTModel.v`, over the reals, and again (except `HtoK`) in `FloatModel.v` over IEEE 754 double precision numbers (Flocq's `binary_float 53 1024`, round to nearest even, one nan); `numpy.exp` and `numpy.log` are parameters assumed accurate to one unit in the last place (`FloatSpec.good_exp`, `good_log`; correct rounding meets both). Arrays are lists.
* `integrals.py` (27 including the class `eri_blocks`): `IntegralsModel.v`. pyscf enters as data: AO integrals, overlap-free MO coefficients, orbital energies, Fock matrix, k-point tables; `ao2mo` is the contraction of the AO integrals with four coefficient matrices (`bar` conjugates the first and third for complex orbitals). Pairs of functions that differ only in the pyscf object they read (`get_X` / `get_X_sol`) share a definition, whose comment cites both.
* `ov_blocks.py` (5): `UtilsModel.v`. `spin_utils.py` (11): `SpinModel.v`. `utils.py` (4): `UtilsModel.v`.
* `test_utils.py` (18): `TestUtilsModel.v`; each `numpy.random.rand` call is an argument (an arbitrary array of the requested shape), so the theorems hold for every draw.
* Not modelled: `__init__.py`, `version.py` (no code), `setup.py`, `tests/`. Of the six programs in `examples/`, `KModel.v` models the sums over k-points in `kmp2.py` and `kpt_hamiltonian.py` (C90, C91), `ExModel.v` the construction of the matrix in the other four (C88); the pyscf calls and `numpy.linalg.eigh` are not modelled.

## 2. Plan per property
(see `MANIFEST.json` for the status and exact theorem names)

* C01–C05, C09–C20, C22: symbolic execution of both programs, polynomial equality. For the unrestricted functions C05, C15 and C20 follow from C08, C16 and C21: the same-spin blocks are entries of an antisymmetric spin-orbital array (USym.v).
  C04 and C14 use dual numbers for "linear part"/"derivative".
* C06, C07: the symbolic run succeeds and leaves the input heap cells untouched; soundness transfers both to all concrete inputs. C07's exception (`ccsd_pt_simple`) by computation.
* C08, C10, C16, C21: additionally split spin-orbital sums into spin blocks; spin-orbital inputs are the outputs of the modelled `spin_utils` functions.
* C23–C37: `ci_utils` model. Specification in Fock space: annihilation and creation operators with Jordan–Wigner phases on 0/1 lists.
* C38–C43, C48: NumPy model, index arithmetic.
* C49: the AO→MO transformation is the contraction of AO integrals with coefficient matrices, conjugated where pyscf does; values, symmetries and occupied/virtual blocks are proved from it.
* C44–C47, C52: real analysis (derivatives, monotonicity, bounds, limits) across the switches of formula in the code.
* C51: each random array is an argument; symmetries proved for every draw.
* C53: k-point integrals as sums over AO integrals with an abstract momentum conservation table.
* C50: `CCFockSpec.v` defines H, T, exp and exp(-T)H exp(T) as sums of products of fermion operators. Operators act on amplitude functions (`FockStates.v`); T is nilpotent and each operator o obeys exp(-T) o exp(T) = o + [o,T] (`FockExp.v`, `FockT.v`). Expectation values of the resulting operator words are evaluated symbolically by a verified Wick procedure (`WickSym.v`, `FockH.v`) and compared with the symbolic run of the program (`CCFock.v`).
* C54: with phi = exp(-T)H exp(T)|0>, H exp(T)|0> = exp(T) phi; exp(T) and exp(-T) never lower the number of electrons in virtual orbitals, so (phi - E|0>) vanishes up to double excitations exactly when (H - E)exp(T)|0> does (`FockSchr.v`, `CCSchr.v`). Determinants up to doubles are classified by `CIMatrix.kinds`.
* C55–C57: `CCDensSpec.v` defines Lambda, normal ordering and the expectation values. The same verified Wick procedure as C50, now with the bra <0|(c + Lambda) and operator words with external indices (`CCDens.v`), or with the commutator [exp(-T)H exp(T), tau] (`CCLambda.v`); the left eigenvalue equation uses that (1 + Lambda) does not see states above double excitations (`CCLeft.v`).
* C58: spin-orbital CCSD (C54) orders the orbitals occupied-alpha, occupied-beta, virtual-alpha, virtual-beta; the CI functions order them alpha, beta. `FockPerm.v` proves that exchanging two neighbouring blocks of orbitals, with its sign, intertwines every operator product; `UFock.v` and `UFockOps.v` prove that the arrays of F_to_spin and int_to_spin2 and the relabelled Hamiltonian and cluster operator are those over spatial orbitals (`UFockSpec.v`); `UCCSchr.v` transfers C54 with C08, C10 and the number of alpha electrons as an invariant.
* C59–C61: a row of H needs only determinants at distance at most four (`CCCI.v`), so it is a finite sum over the CI basis once the basis is complete up to two more excitations; then C27, C35, C36 and C58.
* C62: arithmetic on the constants.
* C63, C64: `RFockSpec.v` defines the spin-free Hamiltonian and the restricted cluster operator through the generators E_pq. `RCC.v` proves that they act like the unrestricted ones with equal integrals and with same-spin amplitudes t_abij - t_abji, so C09/C08 and C58 apply; the spin operators commute with every generator and annihilate the closed-shell determinant.
* C65, C66, C67: `UDensSpec.v` states Lambda, normal ordering and expectation values over alpha and beta spatial orbitals. `UDens.v` carries Lambda and products of operators through the exchange of orbital blocks of C58, so that every spin-orbital expectation value is one over spatial orbitals; `UDens2.v` applies this to C55 with the block patterns of C21, `UDens3.v` to C56 and C57 with C16, C08 and C10.
* C68, C69, C70: `RDensSpec.v` states Lambda with spin-summed generators. `RDens.v` proves that it acts as the Lambda of UDensSpec.v with the closed-shell amplitudes, so that C65 with the blocks of C22 gives the density matrices (`RDens3.v`, including the sign of rccsd_2rdm_bjia), and C66, C67 with C17, C09 and C10 give the Lambda equations and the Lagrangian (`RDens2.v`); the spin-summed commutators follow by linearity.
* C71 to C76: `CovSpec.v` states what it means for arguments and results to be written in other orbitals, to be direct sums, linear combinations, images under a map of the scalars, or to have the spins exchanged. The symbolic execution of C06 gives every result as a sum of index contractions of the arguments; `Cov.v` proves once how two (or three) evaluations of such a sum relate when the arguments are related, given a Boolean condition on the contractions, and `Rot.v` (every summed index joins an upper and a lower axis of one space), `Size.v` (every contraction is connected), `Lin.v` (degree in the marked arguments) and `Flip.v` (the symbolic results with exchanged arguments are equal) give the conditions. `CovThm.v` evaluates the conditions for the whole table of public functions. The two functions with partly summed intermediates are outside C71 (their intermediates mix upper and lower axes), the functions with unlinked products are outside C72 (`unlinked_functions`); both lists are in `CovSpec.v`.
* C77: `CCLinSpec.v` defines H + [H, T] and the cluster operator without singles. The linear part is taken with dual numbers: the theorem C50 is applied to the scalars K[e]/(e^2) with the amplitudes e T, and the coefficient of e is H + [H, T] (`FockLin.v`); C04 identifies the coefficient of e of the residuals with the linearised functions. Doubles only: C03 and C50 with T1 = 0.
* C78: `PTSpec.v` defines a diagonal H0, and the first order equation (H0 - E0)|1> = (E1 - V)|0> determinant by determinant. `FockPT.v` evaluates <bra|T|0> and <bra|H|0> for singles and doubles symbolically (Wick contractions); `FockPT2.v` shows that both vanish on all other determinants and that H0 is diagonal, so the equation splits into one scalar equation per determinant; uniqueness up to determinants that <0|V cannot reach gives the energy.

* C79, C80: `FloatModel.v` is ft_utils.py in double precision. `FloatFacts.v` gives each operation as an exact operation followed by a rounding with an error bound; `FloatFermi.v`, `FloatFermi2.v` bound the error branch by branch at the computed x, then propagate the error of x = beta*(epsilon-mu) through the exact function (which is Lipschitz, and flat where x is large); `FloatGP.v` does the same for the grand potential and its derivative, scaled by beta. Overflow of the product gives an infinite x, for which the results are exactly 0 and 1.
* C81: `CISDSpec.v` states the projected CI equations. H T = [H, T] + T H; C77 gives the first part. `FockCISD.v` shows H|0> = E0|0> + W|0> with W the cluster operator of F_ai and I_abij (by the levels of C78), so T H|0> = E0 T|0> + T W|0>, and evaluates <D|T W|0> symbolically.
* C82: `RPASpec.v` states the RPA and pp-RPA matrices and what it means that (T2, 1) spans an invariant subspace. `RPA.v` gets the four terms of the ring and ladder residuals from the symbolic run, and shows that with W given by the lower block, upper block minus (T2) W is D2*T2 + residual, entry by entry.
* C83: `MolSpec.v` defines the molecule's one- and two-electron integrals over (spin) orbitals. `MolCC.v` turns the block statements of C43 and C49 into the block hypotheses of C50/C54 (`blocks2`), C58 (`u_hamiltonian`) and C63 (`r_hamiltonian`); `FockRef.v` gets <0|H|0> from the symbolic projection of C50. The Fock matrix is a hypothesis: no function of the repository computes it.
* C84: `PT3Spec.v` adds the second order wave function and the Fock matrix without orbital energies. `FockPT3.v` shows that V acts as the Hamiltonian with that Fock matrix, so the projections of V(1 + T)|0> are those of C81 (`FockCISD.v`); the perturbation equations then fix the single and double components, and the energy only sees these. Existence of a second order wave function is proved when there are at most two occupied or two virtual orbitals; in general it needs the denominators of triple and quadruple excitations to be invertible too.

* C85: the interpreter of the CC functions takes its number and array operations as a parameter, so the same program text runs exactly, rounded (`RoundSpec.fl_alg`), on magnitudes (`mag_alg`) and on rounding counts (`depth_alg`). `RoundRun.v` shows one operation at a time that the invariant |x - v| <= ((1+u)^d - 1) m, |v| <= m is kept, and `PySim.v` carries it through every program. An einsum may be any scheme of sums, products and fused multiply-adds whose expansion has the right products (`is_einsum`). `RoundPub.v` bounds d by polynomials in the orbital count (`RoundTable.v`). Simplifications: no overflow or underflow; a result is a function of the operands; literals and negation are exact. Each literal in the code (0.5, 0.25, 2.0, 1/2, ...) is a dyadic number, so this is true in binary floating point.
* C86: `AccSpec.v` lists the 46 functions with the arrays they update and the factor of each argument. `Acc.v` runs each once on tags: every array says whether its value in the run with factors is a weight times its value in the run without, or T plus such a multiple, and whether it is an argument that has not been touched. `sim_tag` shows that the tags are right for every scalar ring, every content and every number of orbitals; `AccRun.v` reads off the accumulators and the other arguments. Omitting fac is shown to be the same as passing its default.
* C87: `PartsSpec.v` lists the 18 pairs (Lambda contribution, amplitude contribution) and, for the eight public functions that only call contributions, the blocks and contributions they are made of. Each contribution is run symbolically on an array of zeros (`Parts.v`, `acc_sound`), and the derivative of the amplitude contribution paired with L is compared with the Lambda contribution paired with dT, as in C14 but row by row. `PartsSum.v` runs the public functions on inputs multiplied by symbols h, s, t, l and compares with the sum of the contributions weighted by the degrees of the table of C86. `_LD_LD_ladder` and `_LD_LDTD_ladder`, which no public function calls, are covered by this claim and by C86.
* C88: `ExModel.v` is the loop of the CI examples (basis, matrix of `ci_matrixel`); pyscf and `eigh` are not modelled, so the theorem speaks of all vectors v and numbers E with H v = E v (the zero vector included). `ExSpec.v` gives the CIS equations for two spins, the Tamm-Dancoff equations for a closed shell, and the Hartree-Fock energy. Rows of the matrix are values of H|psi> by C30 (`ExRow.v`); H on a state of single excitations is read off from the CIS sigma vector of C81 over spin orbitals (`ExCIS.v`, `ExTransfer.v`, `ExMain.v`); the CISD part uses the residuals of C81 and the transfer of C58 (`ExCISD.v`); `ExSpan.v` and `ExSpan2.v` show that every vector (with first entry 1 for CISD) comes from amplitudes.
* C89: C78 over spatial orbitals. `UPT.v` shows that the amplitudes, put into spin-orbital arrays, satisfy the spin-orbital equations with the energies of both spins, so the equation for each determinant (`FockPT2.v`) can be moved to the determinants of the spatial-orbital Hamiltonian (`UCCSchr.v`, `ExTransfer.v`). Denominators alpha-to-beta never occur in D1 and D2, so uniqueness is shown for the components with noa alpha electrons only; the other components do not contribute to <0|V|1> because H conserves spin.
* C11 (unrestricted, restricted), C89 (closed shells): `UEnergy.v` has the energies of `ump2_energy`, `ucc_energy`, `rcc_energy` as explicit sums (symbolic execution, `PropertiesRPT.v`); `RPT.v` specialises the two-spin perturbation theory to equal spins, with the amplitudes t_abij - t_abji for equal spins.
* C90, C91: `KModel.v` has the loops of the two k-point examples with the k-point integrals of `IntegralsModel.v`; division by the number of k-points and by the energy denominators is multiplication by given inverses, complex numbers are pairs. `KSpec.v` numbers the orbitals of the crystal (occupied k-point by k-point, then virtual) and defines its integrals, zero unless momentum is conserved; that the k-points form a commutative group is a hypothesis (`momentum_group`). `KFacts.v`: group laws of `kconserv`, sums over the crystal's orbitals as sums over k-points, the Fock matrix of the crystal is block diagonal. `KProofs.v`: C90 from C88's reference energy, C91 from `RPT.r_pt` by collapsing one sum over k-points.
* C92, C93: over the dual numbers, the energy of C92 differs from the Lagrangian E + <L, R> by <L, R>, which vanishes when the coupled cluster equations hold to first order; the Lagrangian is the contraction of the density matrices (C19), linear in F and I, and its derivative with respect to T is the Lambda equations (C14). `Resp.v` puts this together for all scalars. `RespReal.v` goes to the reals by running each function once over the ring of differentiable functions (`DiffK`): evaluation at t and (value, derivative) at t0 are ring homomorphisms, so C75 applies to both (C93).
* C94, C95: the functions are run symbolically (`UResp.v`, `RResp.v`) with a second set of inputs for the changes of Hamiltonian and amplitudes. Two polynomials are compared by the canonical form of `Sym.v`: the coefficient of eps of energy plus Lambda times residuals, and the contraction plus the Lambda residuals times the change of the amplitudes. `URespThm.v`, `RRespThm.v` turn the comparison into statements on the functions over any scalars; `URespReal.v` goes to real parameters with C93. The contraction with the blocks of the functions is written out in `URespSpec.v`, with the exchange of axes and the sign for the blocks with beta orbitals in first place.
* C96: `TraceSpec.v` lays the returned blocks out over all orbitals and adds the reference determinant. `Trace.v` defines the partial trace of a symbolic array and compares, block by block, the trace of the two-particle blocks with (n_p + n_r - 1) times the one-particle blocks (zero for pairs of different spin). `TraceThm.v` carries this to the program and `TraceSum.v` adds the terms of the reference determinant by summation over all orbitals.
* C97: `PHSpec.v` says what the exchange does to one- and two-particle arrays, to the blocks of a Hamiltonian and which density matrix function belongs to which. `PH.v` runs the functions on the inputs and on the symbolically exchanged inputs and compares the second result with the exchanged first one; `PHThm.v` holds the tables of these checks, their certificates, and the construction of the exchanged arguments.
* C98: `ShiftSpec.v` says what adding blocks to the Fock matrix means, and gives the commutators and the products with denominators entry by entry. `Shift.v` runs the functions on a Hamiltonian that consists of the added blocks only and compares with the commutators; linearity in the Hamiltonian (C73) does the rest. For diagonal blocks the sums collapse to the values of D1, D2 and D2u (C42).
* C99: `VarSpec.v` defines wave functions as functions of determinants, inner products and matrix elements of the Hamiltonian as sums over all determinants, and what it means for a number to bound a quadratic form or the energy. `Var.v` starts from the matrix elements of C31 and collapses the sums over all determinants to sums over the basis; a vector over a smaller basis is a vector over the larger one with zeros; the sum of squares of a vector that is not zero is positive. For complex orbitals (`VarCSpec.v`, `VarC.v`) the bra takes the conjugate and the integrals are Hermitian; the Hamiltonian is then Hermitian as a map of determinants, and the same collapse of sums applies.
* C100: `NegSpec.v` defines gaps, transposes and sums of squares over the reals. With the explicit sums of C11 and the entries of the denominators of C42 every term is minus a square over a denominator of at least the gap; for closed shells the terms of ab and ba are taken together. For complex orbitals (`NegCSpec.v`, `NegC.v`) the real part is the sum of the expressions for real and imaginary parts of the couplings and the imaginary part cancels; for crystals Hermitian integrals give adjoint blocks of the crystal's integrals.
* C101: `EnsSpec.v` lists all occupations of the levels with their Boltzmann weights over the reals. `Ens.v` proves by induction on the levels that the weighted sums factorize; with C45-C47 this gives occupations, pair occupations, the grand potential, its derivatives, energy and entropy, and ln x <= x - 1 gives Gibbs' inequality.
* C102: `DtypeModel.v` repeats the functions that assign into an array made by `numpy.zeros(shape)` (float64) or with the dtype of one argument, with every assignment going through a parameter; with the identity they are the functions of the other files (`id_defs` in `Dtype.v`), with the real part they are NumPy's assignment of complex values to a float64 array. `DtypeCfromT.v` and `DtypeC.v` do the same for `makeCfromT` and `gmakeCfromT` (written by `tools/gen_dtype_cfromt.py`). One relation (real part of) is carried through slices, sums and loops. Other theorems about these functions (C08, C10, C16, C21, C27-C36, C38, C43, C49, C99) are over all scalars and hold for complex arrays only up to this: what is stored is the real part.
* C103: `IterSpec.v` says what bounded, near, one pass of the solver, its history and a solution are (the repository has no solver; the pass is the one that `D1` and `D2` of utils.py are for, amplitudes minus residuals over denominators). `Lips.v` runs each function over the ring of bounded Lipschitz functions of its own arguments and reads off one constant (C75 gives the values of that run). `Banach.v` is the contraction theorem in the maximum norm, `Iter.v` the iteration for two blocks of amplitudes, `IterCC.v` and `IterLam.v` the instances for spin orbitals, `IterD.v` the one for doubles only, `IterR.v` and `IterRL.v` those for closed shells (symmetry of the iterates from C09 and C17), `IterN.v` the iteration for any family of blocks with the unrestricted instances in `IterU.v` and `IterUL.v` (and `IterEq.v`, by C09 and C75, the agreement of the restricted and unrestricted iterates of a closed shell at every pass, for any Hamiltonian): linearity in the Hamiltonian (C73) makes the constant proportional to its size, the denominators identity (C98) turns the pass into a contraction, C05 and C15 keep the antisymmetry. The ratio kappa is shown to exist, no value is computed, and the statement is about exact real arithmetic. Not covered: extrapolation (DIIS), damping, and the update in place of one block before the residual of the next.

Not modelled: floating-point rounding outside `ft_utils.py`, `cc_equations.py` and `cc_energy.py`, overflow and underflow in the latter two, dtype conversion other than assignments into arrays of fixed dtype (C102), memory layout and views, performance, pyscf itself, random number generation (arbitrary arrays instead).

## 3. Trusted base
* Coq 8.16.1's kernel (including the VM for `vm_compute`), coqchk.
* `Print Assumptions` output of each theorem (section 5).
* `tools/py2coq.py` for the correspondence between `/repo` text and `CCProg*.v` (each generated definition cites file and lines and keeps the einsum strings verbatim).
* The hand transcription of the other files.

## 4. Findings
Where the code does not have the expected property, the theorems say exactly what it does.
* `ccd_ring_simple` is not antisymmetric (`C05_ring_not_antisymmetric`); `ccsd_pt_simple` always raises (`C07_ccsd_pt_simple_raises`).
* `q_strings` loops over occupation values instead of positions: of the quadruply excited strings it returns those that empty orbitals 0 and 1, each `nocc*(n-nocc)` times, and no others (`C28_q_strings_exact`, `C28_q_strings_refuted`, `C28_ucisdtq_basis`, `C28_ucisdtq_basis_refuted`, `C28_gcisdtq_basis`).
* `gcis_basis` and the larger general bases raise for an odd number of orbitals (`C27_odd_raises`).
* `gci_matrixel` never adds its argument `const`, and has the wrong sign for double excitations that move both electrons past each other entirely (v2 < o1 or o2 < v1), so `gH_on_vec` is not always H|v> (`C33_gci_matrixel_sign_wrong`, `C33_gci_matrixel_refuted`).
* `makeCfromT` at order 4 omits the term T1b^2 T2aa/2 (`C36_order4_refuted`); `gmakeCfromT` has it. With five or more electrons of one spin (any kind for `gmakeCfromT`) and four or more orbitals for them, both raise at order 4, because `q_strings` does not list all the strings the loops reach (`C36_order4_five_electrons_raises`, `C36_g_order4_five_electrons_raises`). With `occ=None` `gmakeCfromT` always raises (`C37_default_occupation_raises`).
* `fermi_function` is not monotone across its switch at |x| = 30 (`C45_monotone_refuted`); `dgrand_potential0` is the derivative of `grand_potential0` only up to a stated bound for 20 < |x| <= 30 (C46).
* With beta = 0 and a difference epsilon - mu that overflows, `fermi_function` returns nan (`C79_overflow_refuted`).
* `get_chem_anti` ignores its second coefficient argument (`C49_get_chem_anti_ignores_o2`, `C49_get_chem_anti_refuted`).
* `_Lambda_Stanton` ignores its argument `fac` (`C86_lambda_stanton`, `C86_lambda_stanton_fac_refuted`); no caller in the package passes one.
* The conversions to spin orbitals, the operators on CI vectors, `makeCfromT`, `gmakeCfromT` and the matrices of the CI examples assign into float64 arrays, and the unrestricted integrals into arrays with the dtype of the first coefficients: imaginary parts are lost with no more than a warning (C102, `C102_complex_refuted`).
* `make_two_e_blocks` returns the wide class with seven blocks None; `make_random_I_anti` does not make Hermitian integrals; `rccsd_1rdm_ba` and `rccsd_1rdm_ji` ignore `tfac` (as C55 shows they may).

## 5. Print Assumptions
(written by `tools/assumptions.py` from a finished build)

"Closed under the global context" (no axioms), 302 theorems: `C01_ccsd_stanton_eq_simple`, `C02_ccd_stanton_eq_simple`, `C03_ccd_is_ccsd_without_singles`, `C04_linearized_is_linear_part`, `C05_ccd_antisymmetric`, `C05_ccsd_antisymmetric`, `C05_ladder_antisymmetric`, `C05_ring_not_antisymmetric`, `C05_uccsd_antisymmetric`, `C06_C07_total_and_pure`, `C07_ccsd_pt_simple_raises`, `C08_uccsd_is_spin_orbital_ccsd`, `C09_rccsd_is_closed_shell_uccsd`, `C102_ci_vectors`, `C102_integrals`, `C102_real_input`, `C102_round_trip`, `C102_spin_arrays`, `C10_energies_agree_with_spin_orbital`, `C10_rcc_energy_is_ucc_energy`, `C11_cc_energy_formula`, `C11_rcc_energy_formula`, `C11_ucc_energy_formula`, `C12_lambda_implementations_agree`, `C13_ccd_lambda_is_ccsd_lambda_without_singles`, `C14_lambda_is_derivative`, `C15_ccd_lambda_antisymmetric`, `C15_lambda_antisymmetric`, `C15_lambda_opt_int_antisymmetric`, `C15_ulambda_antisymmetric`, `C16_ulambda_is_spin_orbital_lambda`, `C17_rlambda_is_closed_shell_ulambda`, `C18_rdm_opt_eq_plain`, `C18_rdm_opt_eq_plain_tfac`, `C19_rdm_contraction_is_lagrangian`, `C20_rdm_bra_antisymmetric`, `C20_rdm_ket_antisymmetric`, `C20_rrdm_pair_symmetric`, `C20_urdm_bra_antisymmetric`, `C20_urdm_ket_antisymmetric`, `C21_urdm_blocks`, `C22_rrdm_blocks`, `C22_rrdm_vovo_blocks`, `C23_excite_is_operator`, `C23_excite_none`, `C23_excite_pure`, `C23_excite_result`, `C24_diff_metric`, `C24_excite_distance`, `C25_lower`, `C25_lower_pure`, `C25_raize`, `C25_raize_pure`, `C26_d_strings`, `C26_default_reference`, `C26_s_strings`, `C26_t_strings`, `C27_g_reference`, `C27_gcis_basis`, `C27_gcis_basis_without_reference`, `C27_gcisd_basis`, `C27_gcisdt_basis`, `C27_gindex`, `C27_index`, `C27_odd_raises`, `C27_ucis_basis`, `C27_ucis_basis_without_reference`, `C27_ucisd_basis`, `C27_ucisdt_basis`, `C27_ucisdtq_basis`, `C28_gcisdtq_basis`, `C28_q_strings_exact`, `C28_q_strings_refuted`, `C28_q_strings_right`, `C28_ucisdtq_basis`, `C28_ucisdtq_basis_refuted`, `C29_vcis_basis`, `C29_vcisd_basis`, `C30_ci_matrixel`, `C31_ci_matrixel_symmetric`, `C31_pair_symmetry_needed`, `C32_ci_matrixel_zero`, `C32_gci_matrixel_zero`, `C33_gci_matrixel_refuted`, `C33_gci_matrixel_right`, `C33_gci_matrixel_sign_wrong`, `C34_d_on_vec`, `C34_linear`, `C34_s_on_vec`, `C34_spin_on_vec`, `C35_H_on_vec`, `C35_H_on_vec_linear_symmetric`, `C35_gH_on_vec`, `C35_gH_on_vec_right`, `C36_g_order1`, `C36_g_order2`, `C36_g_order3`, `C36_g_order4`, `C36_g_order4_five_electrons_raises`, `C36_g_order4_four_electrons`, `C36_g_raises`, `C36_order1`, `C36_order2`, `C36_order3`, `C36_order4_five_electrons_raises`, `C36_order4_four_electrons`, `C36_order4_lacks_a_term`, `C36_order4_refuted`, `C36_order4_small`, `C36_raises`, `C37_default_occupation_raises`, `C38_F_round_trip`, `C38_T1_round_trip`, `C38_T2_round_trip`, `C38_int_round_trip`, `C39_F_to_spin_conserves`, `C39_T1_to_spin_conserves`, `C39_T2_to_spin_antisymmetric`, `C39_int_to_spin2_antisymmetric`, `C40_int_to_spin_antisymmetrizes`, `C41_T1_retraction`, `C41_T2_retraction`, `C41_needs_conservation`, `C42_D1`, `C42_D2`, `C42_D2_to_spin`, `C42_D2u`, `C42_block_diag`, `C43_full_blocks`, `C43_nine_blocks`, `C43_reassemble`, `C43_wrong_sizes_raise`, `C48_F_symmetric`, `C48_I_antisymmetric`, `C48_I_pair_symmetric`, `C48_Ifull_antisymmetric`, `C48_Ifull_gen_blocks`, `C48_Itot_symmetries`, `C48_L_antisymmetric`, `C48_T_antisymmetric`, `C48_T_spatial_antisymmetric`, `C48_ft_D2_antisymmetric`, `C48_ft_D_antisymmetric`, `C48_ft_T_antisymmetric`, `C48_ft_T_spatial_antisymmetric`, `C48_ft_integrals_symmetric`, `C48_integrals`, `C49_eri_blocks_restricted`, `C49_eri_blocks_unrestricted`, `C49_get_chem_anti_ignores_o2`, `C49_get_chem_anti_refuted`, `C49_get_chem_value`, `C49_get_chemu_all_value`, `C49_get_chemu_value`, `C49_get_phys_antisymmetric`, `C49_get_phys_antiu_value`, `C49_get_phys_value`, `C49_get_physu_all_value`, `C49_physu_all_antisymmetric`, `C49_physu_all_spin_forbidden`, `C50_cc_energy`, `C50_ccsd_residuals`, `C50_every_block_set_has_a_hamiltonian`, `C53_get_solk_integrals_value`, `C53_phys_solk_antisymmetric`, `C53_solk_electron_exchange`, `C53_solk_h1_hermitian`, `C53_solk_phys_is_chem_reordered`, `C53_solk_value`, `C53_solk_zero_unless_conserved`, `C54_exact_for_two_electrons`, `C54_projected_schroedinger_equation`, `C55_complete_densities`, `C55_density_matrices`, `C55_density_matrices_tfac`, `C55_lambda_blocks`, `C56_lambda_equations`, `C56_lambda_equations_intermediates`, `C56_left_eigenvector`, `C57_energy_from_density_matrices`, `C57_expectation_of_the_hamiltonian`, `C58_energy`, `C58_every_hamiltonian`, `C58_exact_for_two_excitations`, `C58_projected_schroedinger_equation`, `C58_same_hamiltonian`, `C59_energy_from_CI`, `C60_full_CI`, `C61_rows`, `C61_rows_suffice`, `C63_energy`, `C63_every_hamiltonian`, `C63_exact_for_two_excitations`, `C63_projected_schroedinger_equation`, `C63_same_hamiltonian`, `C64_singlet`, `C64_spin_symmetry`, `C65_density_matrices`, `C65_density_matrices_tfac`, `C66_lambda_equations`, `C66_left_eigenvector`, `C67_expectation_of_the_hamiltonian`, `C68_density_matrices`, `C68_density_matrices_tfac`, `C68_equal_spins`, `C69_lambda_equations`, `C69_left_eigenvector`, `C70_expectation_of_the_hamiltonian`, `C71_arguments_exist`, `C71_energy_invariant`, `C71_orbital_change`, `C71_solutions`, `C72_energies_add`, `C72_size_consistency`, `C72_solutions`, `C73_linear_in_hamiltonian`, `C74_spin_flip`, `C75_fixed_scalars`, `C75_scalar_map`, `C76_affine_in_lambda`, `C76_linear_in_lambda`, `C76_linearised_affine_in_amplitudes`, `C77_ccd_residuals`, `C77_lccd_residuals`, `C77_lccsd_residuals`, `C77_mp2_energy`, `C78_first_order_wave_function`, `C78_second_order_energy`, `C81_cis`, `C81_cisd`, `C81_sigma`, `C82_ladder_energy`, `C82_ladder_pprpa`, `C82_ring_energy`, `C82_ring_rpa`, `C83_eri_blocks`, `C83_molecular_ccsd`, `C83_restricted`, `C83_unrestricted`, `C84_mp3`, `C84_third_order_energy`, `C85_table_complete`, `C86_contributions`, `C86_lambda_stanton`, `C86_lambda_stanton_fac_refuted`, `C86_table_complete`, `C87_energy_part`, `C87_lambda_parts`, `C87_sums_of_parts`, `C87_table_complete`, `C88_cis`, `C88_cisd`, `C88_closed_shell`, `C89_closed_shell`, `C89_first_order_wave_function`, `C89_second_order_energy`, `C90_crystal_energy`, `C90_crystal_orbitals`, `C91_kmp2`, `C92_first_order_energy`, `C94_restricted_change`, `C94_unrestricted_change`, `C95_restricted_expectation`, `C95_unrestricted_expectation`, `C96_restricted_traces`, `C96_traces`, `C96_unrestricted_traces`, `C97_amplitudes`, `C97_densities`, `C97_densities_tfac`, `C97_doubles`, `C97_doubles_lambda`, `C97_energies`, `C97_exchange_exists`, `C97_ladder_ring`, `C97_lambda`, `C97_restricted_amplitudes`, `C97_restricted_densities`, `C97_restricted_energy`, `C97_restricted_lambda`, `C97_unrestricted_amplitudes`, `C97_unrestricted_densities`, `C97_unrestricted_energies`, `C97_unrestricted_lambda`, `C98_change_exists`, `C98_denominators`, `C98_doubles_denominators`, `C98_doubles_fock_change`, `C98_doubles_lambda_denominators`, `C98_doubles_lambda_fock_change`, `C98_fock_change`, `C98_lambda_denominators`, `C98_lambda_fock_change`, `C98_restricted_denominators`, `C98_restricted_fock_change`, `C98_restricted_lambda_denominators`, `C98_restricted_lambda_fock_change`, `C98_unrestricted_denominators`, `C98_unrestricted_fock_change`, `C98_unrestricted_lambda_denominators`, `C98_unrestricted_lambda_fock_change`, `C99_quadratic_form`.

Axioms `ClassicalDedekindReals.sig_forall_dec`, `FunctionalExtensionality.functional_extensionality_dep` (all from the standard library), 24 theorems: `C100_closed_shell`, `C100_complex_closed_shell`, `C100_kmp2`, `C100_mp2_energy`, `C100_ump2_energy`, `C102_complex_refuted`, `C103_closed_shell_same_iterates`, `C62_HtoK`, `C62_HtoK_linear`, `C85_complex`, `C85_energies`, `C85_every_call`, `C85_public_functions`, `C85_relative_error`, `C99_ccsd_two_excitations`, `C99_complete_basis`, `C99_complex_bound`, `C99_complex_form`, `C99_complex_hermitian`, `C99_complex_larger_basis`, `C99_examples`, `C99_larger_basis`, `C99_lower_bound`, `C99_orthogonal`.

Axioms `ClassicalDedekindReals.sig_forall_dec`, `ClassicalDedekindReals.sig_not_dec`, `FunctionalExtensionality.functional_extensionality_dep` (all from the standard library), 9 theorems: `C100_complex_mp2`, `C100_complex_ump2`, `C101_electrons`, `C101_occupation`, `C101_two_levels`, `C44_occupations_sum_to_one`, `C44_particle_hole`, `C45_exact`, `C47_occupations_sum_to_one`.

Axioms `ClassicalDedekindReals.sig_forall_dec`, `Classical_Prop.classic`, `FunctionalExtensionality.functional_extensionality_dep` (all from the standard library), 6 theorems: `C103_energies_converge`, `C103_lipschitz`, `C92_energy_derivative`, `C93_differentiable`, `C94_restricted_energy_derivative`, `C94_unrestricted_energy_derivative`.

Axioms `ClassicalDedekindReals.sig_forall_dec`, `ClassicalDedekindReals.sig_not_dec`, `Classical_Prop.classic`, `FunctionalExtensionality.functional_extensionality_dep` (all from the standard library), 37 theorems: `C101_derivatives`, `C101_energy_and_entropy`, `C101_gibbs`, `C101_gibbs_equality`, `C101_grand_potential`, `C101_grand_potential_error`, `C101_occupation_error`, `C103_ccsd_converges`, `C103_closed_shell_converges`, `C103_closed_shell_lambda_converges`, `C103_doubles_converge`, `C103_lambda_converges`, `C103_unrestricted_converges`, `C103_unrestricted_lambda_converges`, `C44_probabilities`, `C45_decreasing_in_branch`, `C45_error`, `C45_monotone_refuted`, `C45_relative_error`, `C46_derivative`, `C46_derivative_between`, `C46_derivative_far`, `C46_error`, `C46_exact`, `C46_exact_derivative`, `C47_elementwise`, `C51_occupation_is_derivative`, `C52_zero_temperature`, `C79_always_in_range`, `C79_arrays`, `C79_fermi_functions`, `C79_overflow_refuted`, `C80_arrays`, `C80_derivative`, `C80_grand_potential`, `C85_ccsd_100_orbitals`, `C85_double_precision`.

## 6. Testing the theorems
`tools/mutate.py` edits a definition of the model in a scratch copy, rebuilds, replaces failing proofs by a marker axiom and reports the theorems that depend on it; `seeded/LOG.jsonl` has one line per edit.
