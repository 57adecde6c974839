{"id": "C01", "title": "Stanton-form CCSD equals the term-by-term CCSD", "statement": "For every Fock object F, antisymmetrized integral object I and amplitudes T1, T2 with T2 antisymmetric in its two virtual and in its two occupied indices, ccsd_stanton(F,I,T1,T2) and ccsd_simple(F,I,T1,T2) both return, and the returned T1 and T2 arrays have the same shapes and the same entries.", "quantifier": "all numbers of occupied and virtual orbitals (including 0), all F, all antisymmetric I and T2, all T1, over every commutative ring containing 1/2", "why_tests_cant": "The repository's test compares two floating point results for one random draw at one fixed size to a tolerance; a wrong term that is small, vanishes for that shape, or only shows at other sizes escapes. The claim is an identity of polynomials for all dimensions.", "anchors": ["cqcpy/cc_equations.py:ccsd_simple", "cqcpy/cc_equations.py:ccsd_stanton", "cqcpy/cc_equations.py:_Stanton"]}
{"id": "C02", "title": "Stanton-form CCD equals the term-by-term CCD", "statement": "ccd_stanton(F,I,T2) and ccd_simple(F,I,T2) return equal arrays for every F, antisymmetric I and T2.", "quantifier": "all sizes, F, antisymmetric I, T2", "why_tests_cant": "The repository's test compares two floating point results for one random draw at one fixed size to a tolerance; a wrong term that is small, vanishes for that shape, or only shows at other sizes escapes. The claim is an identity of polynomials for all dimensions.", "anchors": ["cqcpy/cc_equations.py:ccd_simple", "cqcpy/cc_equations.py:ccd_stanton", "cqcpy/cc_equations.py:_Stanton_ccd"]}
{"id": "C03", "title": "CCD is CCSD with zero singles", "statement": "The doubles array returned by ccsd_simple(F,I,0,T2) equals ccd_simple(F,I,T2); likewise ccsd_stanton with T1=0 gives ccd_stanton.", "quantifier": "all sizes, F, I, T2", "why_tests_cant": "The repository's test compares two floating point results for one random draw at one fixed size to a tolerance; a wrong term that is small, vanishes for that shape, or only shows at other sizes escapes. The claim is an identity of polynomials for all dimensions.", "anchors": ["cqcpy/cc_equations.py:ccd_simple", "cqcpy/cc_equations.py:ccsd_simple", "cqcpy/cc_equations.py:ccd_stanton", "cqcpy/cc_equations.py:ccsd_stanton"]}
{"id": "C04", "title": "LCCD and LCCSD are the linear parts of CCD and CCSD", "statement": "lccsd_simple (lccd_simple) returns exactly the constant plus the first-order part in the amplitudes of ccsd_simple (ccd_simple): evaluating the full equations at eps*T with eps^2=0 gives the same constant and the same eps-part as the linearized ones.", "quantifier": "all sizes, integrals and amplitudes", "why_tests_cant": "The repository's test compares two floating point results for one random draw at one fixed size to a tolerance; a wrong term that is small, vanishes for that shape, or only shows at other sizes escapes. The claim is an identity of polynomials for all dimensions.", "anchors": ["cqcpy/cc_equations.py:lccd_simple", "cqcpy/cc_equations.py:lccsd_simple", "cqcpy/cc_equations.py:ccd_simple", "cqcpy/cc_equations.py:ccsd_simple"]}
{"id": "C05", "title": "CC iterations preserve antisymmetry of the doubles", "statement": "If I is antisymmetrized and T2 antisymmetric, the T2 returned by ccsd_simple, ccsd_stanton, ccd_simple, ccd_stanton, lccsd_simple, lccd_simple and ccd_ladder_simple changes sign under exchange of its two virtual indices and under exchange of its two occupied indices. ccd_ring_simple does not have this property. The same-spin doubles returned by uccsd_stanton are antisymmetric in both pairs.", "quantifier": "all sizes, F, I, T1, T2", "why_tests_cant": "Antisymmetry is needed at every iteration of a solver for arbitrary input; a test samples one.", "anchors": ["cqcpy/cc_equations.py:ccsd_simple", "cqcpy/cc_equations.py:ccsd_stanton", "cqcpy/cc_equations.py:ccd_ring_simple", "cqcpy/cc_equations.py:uccsd_stanton"]}
{"id": "C06", "title": "Solvers do not modify their arguments", "statement": "Calling a public function of cc_equations or cc_energy leaves every array reachable from its arguments (F blocks, I blocks, amplitudes, Lagrange multipliers) bitwise unchanged, although the helpers update arrays in place.", "quantifier": "all inputs of the declared shapes, all public functions", "why_tests_cant": "Tests never look at the inputs afterwards; an aliasing bug corrupts data only on some paths, and must be excluded for every input.", "anchors": ["cqcpy/cc_equations.py", "cqcpy/cc_energy.py"]}
{"id": "C07", "title": "No shape errors for consistent inputs", "statement": "Every public function of cc_equations and cc_energy, called with F, I, T, L blocks of mutually consistent shapes, returns normally with arrays of the documented shapes, whatever the (possibly zero, possibly unequal alpha/beta) orbital numbers; ccsd_pt_simple is the exception: it always raises.", "quantifier": "all orbital counts and array contents", "why_tests_cant": "Tests use one or two fixed sizes, in which an index-class mistake can go unnoticed because two dimensions coincide.", "anchors": ["cqcpy/cc_equations.py", "cqcpy/cc_energy.py", "cqcpy/cc_equations.py:ccsd_pt_simple"]}
{"id": "C08", "title": "Unrestricted CCSD equals spin-orbital CCSD", "statement": "If the spin-orbital F, I, T1, T2 are built from alpha/beta/alpha-beta pieces by F_to_spin, int_to_spin2, T1_to_spin, T2_to_spin, then ccsd_stanton on them returns exactly T1_to_spin/T2_to_spin of the amplitudes returned by uccsd_stanton on the pieces, in every spin block (including the blocks that must vanish).", "quantifier": "all noa,nva,nob,nvb, all unrestricted F, antisymmetric Ia/Ib, arbitrary Iabab, T1a,T1b, antisymmetric T2aa,T2bb, arbitrary T2ab", "why_tests_cant": "The repository's test compares two floating point results for one random draw at one fixed size to a tolerance; a wrong term that is small, vanishes for that shape, or only shows at other sizes escapes. The claim is an identity of polynomials for all dimensions.", "anchors": ["cqcpy/cc_equations.py:uccsd_stanton", "cqcpy/cc_equations.py:_u_Stanton", "cqcpy/cc_equations.py:ccsd_stanton", "cqcpy/spin_utils.py"]}
{"id": "C09", "title": "Restricted CCSD equals unrestricted CCSD for a closed shell", "statement": "With equal alpha and beta Fock blocks, I symmetric under (1,0,3,2) and T2 symmetric under (1,0,3,2), rccsd_stanton(F,I,T1,T2) returns the alpha singles and the alpha-beta doubles that uccsd_stanton returns for Ia=Ib=I-I.transpose(0,1,3,2), Iabab=I, T2aa=T2bb=T2-T2.transpose(0,1,3,2), T2ab=T2, and uccsd_stanton's other outputs are determined by these.", "quantifier": "all sizes, F, pair-symmetric I and T2, T1", "why_tests_cant": "The repository's test compares two floating point results for one random draw at one fixed size to a tolerance; a wrong term that is small, vanishes for that shape, or only shows at other sizes escapes. The claim is an identity of polynomials for all dimensions.", "anchors": ["cqcpy/cc_equations.py:rccsd_stanton", "cqcpy/cc_equations.py:_r_Stanton", "cqcpy/cc_equations.py:uccsd_stanton"]}
{"id": "C10", "title": "CC energy functions agree across spin treatments", "statement": "cc_energy on spin-orbital arrays built from unrestricted pieces equals ucc_energy on the pieces; rcc_energy equals ucc_energy for closed-shell pieces; mp2_energy on spin-orbital arrays equals ump2_energy.", "quantifier": "all sizes and inputs with the stated symmetries", "why_tests_cant": "The repository's test compares two floating point results for one random draw at one fixed size to a tolerance; a wrong term that is small, vanishes for that shape, or only shows at other sizes escapes. The claim is an identity of polynomials for all dimensions.", "anchors": ["cqcpy/cc_energy.py:cc_energy", "cqcpy/cc_energy.py:ucc_energy", "cqcpy/cc_energy.py:rcc_energy", "cqcpy/cc_energy.py:mp2_energy", "cqcpy/cc_energy.py:ump2_energy"]}
{"id": "C11", "title": "CC energy formula", "statement": "cc_energy(T1,T2,Fov,Ioovv) = sum_ia F_ia T1_ai + 1/4 sum_ijab I_ijab T2_abij + 1/2 sum_ijab I_ijab T1_ai T1_bj, and mp2_energy is the same without the quadratic term; in particular the sums are additive in F and I. ucc_energy and ump2_energy are the corresponding sums over two spins (singles of each spin, 1/4 of the same-spin doubles, the mixed doubles, and for ucc_energy 1/2 of the same-spin products of singles and the mixed product), and rcc_energy(T1,T2,Fov,Joovv) = 2 sum_ia F_ia T1_ai + sum_ijab (2 J_ijab - J_ijba) (T2_abij + T1_ai T1_bj).", "quantifier": "all sizes and arrays (no symmetry assumed)", "why_tests_cant": "A numeric test fixes one instance; the formula is a universally quantified identity.", "anchors": ["cqcpy/cc_energy.py:cc_energy", "cqcpy/cc_energy.py:cc_energy_d", "cqcpy/cc_energy.py:cc_energy_s1", "cqcpy/cc_energy.py:cc_energy_s2", "cqcpy/cc_energy.py:mp2_energy", "cqcpy/cc_energy.py:ucc_energy", "cqcpy/cc_energy.py:ump2_energy", "cqcpy/cc_energy.py:rcc_energy"]}
{"id": "C12", "title": "All four Lambda implementations agree", "statement": "ccsd_lambda_simple, ccsd_lambda_opt, ccsd_lambda_opt_int (given lambda_int(F,I,T1,T2)) and ccsd_lambda_stanton return equal L1 and L2 for the same F, I, L1, L2, T1, T2.", "quantifier": "all sizes, F, antisymmetric I, T2, L2, all T1, L1", "why_tests_cant": "The repository's test compares two floating point results for one random draw at one fixed size to a tolerance; a wrong term that is small, vanishes for that shape, or only shows at other sizes escapes. The claim is an identity of polynomials for all dimensions.", "anchors": ["cqcpy/cc_equations.py:ccsd_lambda_simple", "cqcpy/cc_equations.py:ccsd_lambda_opt", "cqcpy/cc_equations.py:ccsd_lambda_opt_int", "cqcpy/cc_equations.py:ccsd_lambda_stanton", "cqcpy/cc_equations.py:lambda_int"]}
{"id": "C13", "title": "CCD Lambda is CCSD Lambda without singles", "statement": "ccd_lambda_simple(F,I,L2,T2) equals the L2 returned by ccsd_lambda_simple(F,I,0,L2,0,T2).", "quantifier": "all sizes and inputs", "why_tests_cant": "The repository's test compares two floating point results for one random draw at one fixed size to a tolerance; a wrong term that is small, vanishes for that shape, or only shows at other sizes escapes. The claim is an identity of polynomials for all dimensions.", "anchors": ["cqcpy/cc_equations.py:ccd_lambda_simple", "cqcpy/cc_equations.py:ccsd_lambda_simple"]}
{"id": "C14", "title": "The Lambda equations are the derivative of the CC Lagrangian", "statement": "The directional derivative of cc_energy(T) + sum L1*R1(T) + 1/4 sum L2*R2(T), with (R1,R2)=ccsd_simple, along any (dT1, antisymmetric dT2) equals sum L1'*dT1 + 1/4 sum L2'*dT2 with (L1',L2')=ccsd_lambda_simple(F,I,L1,L2,T1,T2).", "quantifier": "all sizes, F, antisymmetric I,T2,L2, all T1, L1 and directions", "why_tests_cant": "A finite-difference test checks one point and direction, to limited accuracy.", "anchors": ["cqcpy/cc_equations.py:ccsd_lambda_simple", "cqcpy/cc_equations.py:ccsd_simple", "cqcpy/cc_energy.py:cc_energy"]}
{"id": "C15", "title": "Lambda iterations preserve antisymmetry", "statement": "The L2 returned by ccsd_lambda_simple/opt/opt_int/stanton and ccd_lambda_simple is antisymmetric in its occupied pair and in its virtual pair. The same-spin doubles returned by uccsd_lambda_opt are antisymmetric in both pairs.", "quantifier": "all sizes and inputs with the stated symmetries", "why_tests_cant": "The repository's test compares two floating point results for one random draw at one fixed size to a tolerance; a wrong term that is small, vanishes for that shape, or only shows at other sizes escapes. The claim is an identity of polynomials for all dimensions.", "anchors": ["cqcpy/cc_equations.py:ccsd_lambda_simple", "cqcpy/cc_equations.py:ccsd_lambda_opt", "cqcpy/cc_equations.py:uccsd_lambda_opt"]}
{"id": "C16", "title": "Unrestricted Lambda equals spin-orbital Lambda", "statement": "ccsd_lambda_opt on spin-orbital arrays built from unrestricted pieces returns the spin-orbital arrays built from what uccsd_lambda_opt returns on the pieces, in all spin blocks.", "quantifier": "all noa,nva,nob,nvb and inputs with the stated symmetries", "why_tests_cant": "The repository's test compares two floating point results for one random draw at one fixed size to a tolerance; a wrong term that is small, vanishes for that shape, or only shows at other sizes escapes. The claim is an identity of polynomials for all dimensions.", "anchors": ["cqcpy/cc_equations.py:uccsd_lambda_opt", "cqcpy/cc_equations.py:_uccsd_Lambda_opt", "cqcpy/cc_equations.py:ccsd_lambda_opt"]}
{"id": "C17", "title": "Restricted Lambda equals unrestricted Lambda for a closed shell", "statement": "rccsd_lambda_opt returns the alpha L1 and alpha-beta L2 of uccsd_lambda_opt on the corresponding closed-shell pieces.", "quantifier": "all sizes, pair-symmetric I, T2, L2", "why_tests_cant": "The repository's test compares two floating point results for one random draw at one fixed size to a tolerance; a wrong term that is small, vanishes for that shape, or only shows at other sizes escapes. The claim is an identity of polynomials for all dimensions.", "anchors": ["cqcpy/cc_equations.py:rccsd_lambda_opt", "cqcpy/cc_equations.py:_rccsd_Lambda_opt", "cqcpy/cc_equations.py:uccsd_lambda_opt"]}
{"id": "C18", "title": "Optimized reduced density matrices equal the plain ones", "statement": "Each ccsd_1rdm_*_opt and ccsd_2rdm_*_opt returns the same array as its plain counterpart on the same amplitudes.", "quantifier": "all sizes, antisymmetric T2, L2, all T1, L1, tfac", "why_tests_cant": "The repository's test compares two floating point results for one random draw at one fixed size to a tolerance; a wrong term that is small, vanishes for that shape, or only shows at other sizes escapes. The claim is an identity of polynomials for all dimensions.", "anchors": ["cqcpy/cc_equations.py:ccsd_2rdm_abij", "cqcpy/cc_equations.py:ccsd_2rdm_abij_opt", "cqcpy/cc_equations.py:ccsd_2rdm_bcai_opt", "cqcpy/cc_equations.py:ccsd_2rdm_kaij_opt"]}
{"id": "C19", "title": "Density matrices reproduce the Lagrangian", "statement": "Contracting the 1- and 2-RDM blocks returned by the ccsd_1rdm_*/ccsd_2rdm_* functions (with L1, L2 as the remaining blocks) with F and I gives cc_energy(T) + sum L1*R1(T) + 1/4 sum L2*R2(T) for every F and I, i.e. the RDMs are the derivatives of the Lagrangian with respect to the integrals.", "quantifier": "all sizes, F, antisymmetric I, T2, L2, T1, L1", "why_tests_cant": "The repository's test compares two floating point results for one random draw at one fixed size to a tolerance; a wrong term that is small, vanishes for that shape, or only shows at other sizes escapes. The claim is an identity of polynomials for all dimensions.", "anchors": ["cqcpy/cc_equations.py:ccsd_1rdm_ba", "cqcpy/cc_equations.py:ccsd_1rdm_ji", "cqcpy/cc_equations.py:ccsd_1rdm_ai", "cqcpy/cc_equations.py:ccsd_2rdm_abij"]}
{"id": "C20", "title": "Density-matrix blocks have fermionic symmetry", "statement": "The 2-RDM blocks with two like indices in a bra or ket pair (cdab, klij, abij, ciab/bcai, jkai/kaij) are antisymmetric in that pair. So are the alpha-alpha and beta-beta blocks of the unrestricted functions; the restricted cdab, klij and abij blocks do not change when the two particles are exchanged (G[p,q,r,s] = G[q,p,s,r]).", "quantifier": "all sizes and amplitudes with the stated symmetries", "why_tests_cant": "The repository's test compares two floating point results for one random draw at one fixed size to a tolerance; a wrong term that is small, vanishes for that shape, or only shows at other sizes escapes. The claim is an identity of polynomials for all dimensions.", "anchors": ["cqcpy/cc_equations.py:ccsd_2rdm_cdab", "cqcpy/cc_equations.py:ccsd_2rdm_klij", "cqcpy/cc_equations.py:ccsd_2rdm_abij", "cqcpy/cc_equations.py:uccsd_2rdm_cdab", "cqcpy/cc_equations.py:rccsd_2rdm_cdab"]}
{"id": "C21", "title": "Unrestricted density matrices are the spin blocks of the spin-orbital ones", "statement": "Each uccsd_1rdm_*/uccsd_2rdm_* function returns the corresponding spin blocks of the spin-orbital ccsd_1rdm_*/ccsd_2rdm_* array evaluated on spin-orbital amplitudes built from the pieces.", "quantifier": "all noa,nva,nob,nvb and amplitudes with the stated symmetries", "why_tests_cant": "The repository's test compares two floating point results for one random draw at one fixed size to a tolerance; a wrong term that is small, vanishes for that shape, or only shows at other sizes escapes. The claim is an identity of polynomials for all dimensions.", "anchors": ["cqcpy/cc_equations.py:uccsd_1rdm_ba", "cqcpy/cc_equations.py:uccsd_2rdm_abij", "cqcpy/cc_equations.py:uccsd_2rdm_bjai"]}
{"id": "C22", "title": "Restricted density matrices agree with unrestricted ones", "statement": "Each rccsd_1rdm_*/rccsd_2rdm_* function returns the alpha (1-RDM) or alpha-beta (2-RDM) block that the unrestricted function returns on closed-shell amplitudes.", "quantifier": "all sizes, pair-symmetric T2, L2, T1, L1", "why_tests_cant": "The repository's test compares two floating point results for one random draw at one fixed size to a tolerance; a wrong term that is small, vanishes for that shape, or only shows at other sizes escapes. The claim is an identity of polynomials for all dimensions.", "anchors": ["cqcpy/cc_equations.py:rccsd_1rdm_ba", "cqcpy/cc_equations.py:rccsd_2rdm_abij"]}
{"id": "C23", "title": "Determinant excitation is the fermionic operator a†_a a_i", "statement": "Dstring.excite(i,a) returns (None,None) exactly when orbital i is not occupied or a is not empty; otherwise it returns the string with i emptied and a filled, all other orbitals unchanged, and the sign +-1 that the creation/annihilation operators with Jordan-Wigner phases give; the original string is not modified; electron number is preserved; exciting back from a to i restores the string with the same sign.", "quantifier": "all string lengths, all 0/1 occupations, all orbital pairs", "why_tests_cant": "The sign depends on all occupations between i and a: 2^n strings for every n.", "anchors": ["cqcpy/ci_utils.py:Dstring.excite"]}
{"id": "C24", "title": "Excitation level is a metric on occupation strings", "statement": "diff(bra,ket)=level(bra,ket) is the number of orbitals with different occupation: symmetric, zero iff the strings are equal, satisfies the triangle inequality, is even for equal electron number, and a successful excite is at distance exactly 2.", "quantifier": "all pairs/triples of strings of equal length", "why_tests_cant": "Quantifies over all pairs of strings.", "anchors": ["cqcpy/ci_utils.py:level", "cqcpy/ci_utils.py:diff"]}
{"id": "C25", "title": "Vibrational ladder operators invert each other", "statement": "Pstring.raize(p) adds one quantum in mode p only; lower(p) returns None iff the mode is empty and otherwise removes one; lower after raize gives back the original; total quanta change by exactly one; the original is unmodified.", "quantifier": "all occupation vectors and modes", "why_tests_cant": "All vectors and modes.", "anchors": ["cqcpy/ci_utils.py:Pstring.raize", "cqcpy/ci_utils.py:Pstring.lower"]}
{"id": "C26", "title": "s_/d_/t_strings enumerate each excited determinant exactly once", "statement": "For any reference occupation, s_strings, d_strings and t_strings return without duplicates exactly the 0/1 strings with the same electron number that differ from the reference by 1, 2, 3 excitations; the list length is C(nocc,k)*C(nvir,k). q_strings does not satisfy this (refuted).", "quantifier": "all lengths, electron numbers and reference occupations", "why_tests_cant": "Completeness and uniqueness of an enumeration for every n.", "anchors": ["cqcpy/ci_utils.py:s_strings", "cqcpy/ci_utils.py:d_strings", "cqcpy/ci_utils.py:t_strings", "cqcpy/ci_utils.py:q_strings"]}
{"id": "C27", "title": "CI bases are complete, duplicate-free and start with the reference", "statement": "ucis/ucisd/ucisdt (gcis/gcisd/gcisdt) bases list the reference first and then exactly the determinants with the reference's electron numbers (per spin for the u-variants) of total excitation level at most 1/2/3, each once; basis.index of any such determinant therefore succeeds and is unique. With gs=False the reference alone is left out.", "quantifier": "all orbital and electron numbers", "why_tests_cant": "Enumeration claim for all n.", "anchors": ["cqcpy/ci_utils.py:ucis_basis", "cqcpy/ci_utils.py:ucisd_basis", "cqcpy/ci_utils.py:ucisdt_basis", "cqcpy/ci_utils.py:gcis_basis", "cqcpy/ci_utils.py:gcisd_basis", "cqcpy/ci_utils.py:gcisdt_basis"]}
{"id": "C28", "title": "Quadruple enumeration is wrong (refutation)", "statement": "q_strings iterates over occupation values instead of occupied orbital indices. Whenever there are quadruple excitations it returns duplicates, and with five or more electrons it misses some. Its list holds exactly the quadruple excitations that empty orbitals 0 and 1, each nocc*(n-nocc) times; gcisdtq_basis is gcisdt_basis followed by such a list, and ucisdtq_basis has every pair of strings with up to four excitations, at most three in one spin, exactly once, together with such a list for each spin. None of them raises.", "quantifier": "every number of orbitals and of electrons of either spin", "why_tests_cant": "The test-suite only exercises sizes where the list is short or empty.", "anchors": ["cqcpy/ci_utils.py:q_strings", "cqcpy/ci_utils.py:ucisdtq_basis", "cqcpy/ci_utils.py:gcisdtq_basis"]}
{"id": "C29", "title": "Vibrational CI bases", "statement": "vcis_basis/vcisd_basis list, without duplicates, exactly the occupation vectors with at most 1/2 quanta, vacuum first.", "quantifier": "all numbers of modes", "why_tests_cant": "Enumeration for all n.", "anchors": ["cqcpy/ci_utils.py:vcis_basis", "cqcpy/ci_utils.py:vcisd_basis", "cqcpy/ci_utils.py:s_pstrings", "cqcpy/ci_utils.py:d_pstrings"]}
{"id": "C30", "title": "Determinant matrix elements follow the Slater-Condon rules", "statement": "ci_matrixel(bra,ket,...) equals <bra|H|ket> for H = const + sum h a†a + 1/2 sum I a†a†aa (alpha, beta and alpha-beta parts) with Jordan-Wigner phases, for all bra, ket with the same numbers of alpha and beta electrons.", "quantifier": "all orbital counts, all pairs of determinants with equal electron numbers, all integrals with I_pqrs=I_qpsr", "why_tests_cant": "Signs depend on global occupation patterns; 4^n determinant pairs for every n.", "anchors": ["cqcpy/ci_utils.py:ci_matrixel"]}
{"id": "C31", "title": "CI matrix elements are symmetric for symmetric integrals", "statement": "With symmetric h, I_pqrs=I_rspq (real integrals) and the same-spin integrals symmetric under exchange of the electrons (I_pqrs=I_qpsr), ci_matrixel(bra,ket)=ci_matrixel(ket,bra). Without the exchange symmetry it can fail.", "quantifier": "all determinants and integrals with the stated symmetry", "why_tests_cant": "All pairs.", "anchors": ["cqcpy/ci_utils.py:ci_matrixel"]}
{"id": "C32", "title": "CI matrix elements vanish beyond double excitations", "statement": "ci_matrixel and gci_matrixel return 0 whenever bra and ket differ by more than two excitations in total.", "quantifier": "all pairs", "why_tests_cant": "All pairs.", "anchors": ["cqcpy/ci_utils.py:ci_matrixel", "cqcpy/ci_utils.py:gci_matrixel"]}
{"id": "C33", "title": "Spin-orbital matrix element sign and constant (refutation)", "statement": "gci_matrixel does not equal <bra|H|ket>: for a double excitation whose created pair lies entirely above or entirely below the annihilated pair the sign is wrong (ci_matrixel has the correction, gci_matrixel does not), and the constant is ignored on the diagonal. For all other pairs it is right.", "quantifier": "existential refutation plus universal characterization of when it is right", "why_tests_cant": "Needs the sign for every pair of strings.", "anchors": ["cqcpy/ci_utils.py:gci_matrixel"]}
{"id": "C34", "title": "Operators on CI vectors", "statement": "s_on_vec, sa_on_vec, sb_on_vec, d_on_vec, da_on_vec, db_on_vec, sasb_on_vec apply the excitation operator to the vector and project on the basis: the coefficient of basis state J in the output is the sum over basis states K of sign(K->J)*vec[K]; they are linear in vec and never raise for bases of equal-length strings.", "quantifier": "all duplicate-free bases, vectors, orbital indices below the number of orbitals with i different from a and j different from b (for i=a the code returns zero, not the number operator)", "why_tests_cant": "Any basis, any vector.", "anchors": ["cqcpy/ci_utils.py:s_on_vec", "cqcpy/ci_utils.py:sa_on_vec", "cqcpy/ci_utils.py:d_on_vec", "cqcpy/ci_utils.py:sasb_on_vec"]}
{"id": "C35", "title": "Hamiltonian on CI vectors", "statement": "H_on_vec(basis,vec,...)[i] = sum_j ci_matrixel(basis[i],basis[j],const=0)*vec[j]; it is linear, and symmetric as a bilinear form when the integrals are; gH_on_vec likewise with gci_matrixel.", "quantifier": "all bases, vectors, integrals", "why_tests_cant": "Any basis and vector.", "anchors": ["cqcpy/ci_utils.py:H_on_vec", "cqcpy/ci_utils.py:gH_on_vec"]}
{"id": "C36", "title": "CI coefficients from cluster amplitudes are those of exp(T)", "statement": "makeCfromT(...,order) for order 1..3, and gmakeCfromT(...,order,occ) for order 1..4 with the reference occupation, return, for every determinant of the corresponding CI basis, its coefficient in the expansion of exp(T1+T2)|ref>. makeCfromT with order 4 lacks exactly the T1b T1b T2aa / 2 contribution, so it is right only where that term cannot occur. At order 4, with four electrons of one kind the first copy of each repeated basis string gets the coefficient and the others are zero; with five or more (and four or more empty orbitals) both functions raise. order<1 or >4, unequal numbers of alpha and beta orbitals, and (for gmakeCfromT) an odd number of orbitals raise.", "quantifier": "all orbital numbers, all amplitudes, all orders", "why_tests_cant": "Combinatorial identity over all sizes.", "anchors": ["cqcpy/ci_utils.py:makeCfromT", "cqcpy/ci_utils.py:gmakeCfromT"]}
{"id": "C37", "title": "gmakeCfromT default occupation always fails", "statement": "gmakeCfromT(no,nv,T1,T2,order) without occ raises for every no+nv>0, because the default occupation has half the required length.", "quantifier": "all no, nv with no+nv>0, all amplitudes, all orders 1..4", "why_tests_cant": "Universal failure claim.", "anchors": ["cqcpy/ci_utils.py:gmakeCfromT"]}
{"id": "C38", "title": "Spin-orbital <-> spatial conversion round trips", "statement": "T1_to_spatial(T1_to_spin(Ta,Tb)) = (Ta,Tb), T2_to_spatial(T2_to_spin(Taa,Tab,Tbb)) = (Taa,Tab,Tbb), F_to_spatial(F_to_spin(Fa,Fb)) = (Fa,Fb), int_to_spatial(int_to_spin2(Ia,Ib,Iab)) returns Ia, Ib and Iab.", "quantifier": "all noa,nva,nob,nvb (zero and unequal included), all arrays of the right shapes", "why_tests_cant": "Slicing mistakes show only for some unequal size combinations.", "anchors": ["cqcpy/spin_utils.py"]}
{"id": "C39", "title": "Spin-orbital T2 is antisymmetric and spin-conserving", "statement": "If Taa and Tbb are antisymmetric then T2_to_spin(Taa,Tab,Tbb) is antisymmetric in both pairs, whatever Tab; the blocks that do not conserve spin are zero; the same holds for int_to_spin2 blocks with like pairs; T1_to_spin/F_to_spin have zero alpha-beta blocks.", "quantifier": "all sizes and arrays", "why_tests_cant": "All sizes and entries.", "anchors": ["cqcpy/spin_utils.py:T2_to_spin", "cqcpy/spin_utils.py:int_to_spin2", "cqcpy/spin_utils.py:int_to_spin_block"]}
{"id": "C40", "title": "int_to_spin antisymmetrizes raw integrals", "statement": "int_to_spin(Ia,Ib,Iab) = int_to_spin2(Ia - Ia.transpose(0,1,3,2), Ib - Ib.transpose(0,1,3,2), Iab) blockwise (with the full-block objects' exchange blocks), so its output is antisymmetric in like pairs when Ia, Ib have the (1,0,3,2) symmetry.", "quantifier": "all sizes and integrals", "why_tests_cant": "All sizes and entries.", "anchors": ["cqcpy/spin_utils.py:int_to_spin", "cqcpy/spin_utils.py:int_to_spin2"]}
{"id": "C41", "title": "Spin-orbital round trip is a retraction", "statement": "T2_to_spin(T2_to_spatial(T)) = T for every antisymmetric spin-conserving spin-orbital T, and T1_to_spin(T1_to_spatial(T)) = T for every spin-conserving T; without spin conservation it fails.", "quantifier": "all sizes, all such T", "why_tests_cant": "All T.", "anchors": ["cqcpy/spin_utils.py:T2_to_spin", "cqcpy/spin_utils.py:T2_to_spatial"]}
{"id": "C42", "title": "Energy denominators", "statement": "D1, D2, D2u return e_a - e_i, e_a + e_b - e_i - e_j at every position with the right shape; D2 is symmetric in each pair; D2_to_spin(D2(a),D2u,D2(b)) equals D2 of the concatenated energies on every spin-conserving block and 0 elsewhere; block_diag(A,B) has A and B on the diagonal and zeros elsewhere.", "quantifier": "all vector lengths and energies", "why_tests_cant": "All lengths.", "anchors": ["cqcpy/utils.py:D1", "cqcpy/utils.py:D2", "cqcpy/utils.py:D2u", "cqcpy/spin_utils.py:D2_to_spin", "cqcpy/utils.py:block_diag"]}
{"id": "C43", "title": "Occupied/virtual block partition", "statement": "make_two_e_blocks(_full) returns blocks whose entries are exactly the corresponding entries of Itot; the 16 full blocks partition Itot, so Itot can be reassembled from them; a mismatch between a dimension and its no+nv raises.", "quantifier": "all (possibly different) dimensions, all arrays", "why_tests_cant": "All sizes.", "anchors": ["cqcpy/ov_blocks.py:make_two_e_blocks", "cqcpy/ov_blocks.py:make_two_e_blocks_full"]}
{"id": "C44", "title": "Fermi functions sum to one and are probabilities", "statement": "For every beta, epsilon, mu: fermi_function + vfermi_function = 1 exactly, in all three branches, and both lie in (0,1); vfermi_function(beta,e,mu)=fermi_function(beta,2mu-e,mu).", "quantifier": "all real beta, epsilon, mu", "why_tests_cant": "Branch boundaries and all reals.", "anchors": ["cqcpy/ft_utils.py:fermi_function", "cqcpy/ft_utils.py:vfermi_function"]}
{"id": "C45", "title": "Fermi function approximates 1/(e^x+1)", "statement": "fermi_function is exactly 1/(exp(x)+1) for |x|<=30; everywhere it differs from it by less than exp(-60) and by at most exp(-30) relatively. It is decreasing within each branch, but not across x=30 (refutation).", "quantifier": "all reals", "why_tests_cant": "Reals.", "anchors": ["cqcpy/ft_utils.py:fermi_function"]}
{"id": "C46", "title": "Grand potential and its derivative", "statement": "grand_potential0 equals -(1/beta) ln(1+exp(-x)), x = beta(epsilon-mu), for |x|<=20 and is within exp(-40)/|beta| of it always; dgrand_potential0 is the derivative of grand_potential0 with respect to beta wherever |x|<20 or |x|>30, within |x|exp(-2|x|)/beta^2 of it for 20<|x|<=30, and equal to (|x|<=20) or within (1+|x|)exp(-2|x|)/beta^2 of the derivative of the exact expression.", "quantifier": "all beta<>0, epsilon, mu", "why_tests_cant": "Derivative claim over the reals.", "anchors": ["cqcpy/ft_utils.py:grand_potential0", "cqcpy/ft_utils.py:dgrand_potential0"]}
{"id": "C47", "title": "Vector versions act elementwise", "statement": "ff, ffv, GP0, uGP0, dGP0 return vectors of the input's length whose entries are the scalar functions; ff+ffv is the all-ones vector.", "quantifier": "all vector lengths, all reals", "why_tests_cant": "All lengths.", "anchors": ["cqcpy/ft_utils.py:ff", "cqcpy/ft_utils.py:ffv", "cqcpy/ft_utils.py:GP0", "cqcpy/ft_utils.py:uGP0", "cqcpy/ft_utils.py:dGP0"]}
{"id": "C48", "title": "Random test tensors have the promised symmetries", "statement": "For every outcome of the random generator, make_random_F has symmetric oo, vv and vo=ov^T; make_random_I_anti/_Ifull/_T/_L/_T2_spatial/_ft_integrals/_ft_T give antisymmetric tensors; make_random_Itot has the (1,0,3,2),(2,3,0,1),(3,2,1,0) symmetries; make_random_ft_D denominators are antisymmetric under particle-hole exchange.", "quantifier": "all draws and sizes", "why_tests_cant": "Every draw.", "anchors": ["cqcpy/test_utils.py"]}
{"id": "C49", "title": "Antisymmetrized integral getters", "statement": "With any AO->MO transformation that contracts AO integrals (mu nu|la si) = (la si|mu nu) with the orbital coefficients, get_chem, get_phys and their unrestricted, _all, _sol and _gen forms return exactly the named integrals over (spin) orbitals; get_phys(anti=True) is antisymmetric in its last (first) pair when the two coefficient sets agree; get_physu_all(anti=True) is antisymmetric in both pairs and zero where the electrons' spins change; every block of eri_blocks(mf, code) is the sub-array of get_phys_antiu_all_gen(mf) at the occupied and virtual spin orbitals, and code selects which blocks exist; get_chem_anti ignores its second coefficient argument (refutation of its name).", "quantifier": "all orbital sets, all AO integral oracles with the stated symmetry", "why_tests_cant": "Any molecule; needs pyscf to test.", "anchors": ["cqcpy/integrals.py:get_chem", "cqcpy/integrals.py:get_phys", "cqcpy/integrals.py:get_chemu", "cqcpy/integrals.py:get_chemu_all", "cqcpy/integrals.py:get_physu_all", "cqcpy/integrals.py:get_phys_antiu", "cqcpy/integrals.py:eri_blocks", "cqcpy/integrals.py:get_chem_anti"]}
{"id": "C50", "title": "CCSD energy and residuals are projections of the similarity-transformed Hamiltonian", "statement": "For the Hamiltonian H = sum h_pq p+q + 1/4 sum g_pqrs p+q+sr with Fock blocks F and antisymmetrised integral blocks I, and the cluster operator T of the amplitudes T1, T2: cc_energy returns <0|exp(-T)H exp(T)|0> - <0|H|0>, and the singles and doubles returned by ccsd_simple and ccsd_stanton are the projections of exp(-T)H exp(T)|0> on the singly and doubly excited determinants. Every F and I of the documented form belongs to such a Hamiltonian.", "quantifier": "all numbers of occupied and virtual orbitals, h, antisymmetric g, T1, antisymmetric T2; every single and double excitation", "why_tests_cant": "The repository's test compares two floating point results for one random draw at one fixed size to a tolerance; a wrong term that is small, vanishes for that shape, or only shows at other sizes escapes. The claim is an identity of polynomials for all dimensions.", "anchors": ["cqcpy/cc_equations.py:ccsd_simple", "cqcpy/cc_energy.py:cc_energy", "cqcpy/cc_equations.py:ccsd_stanton"]}
{"id": "C51", "title": "Occupation is minus the mu-derivative of the grand potential", "statement": "For every beta<>0 and |x|<20 or |x|>30 (x = beta(epsilon-mu)), the derivative of grand_potential0(beta,epsilon,mu) with respect to mu is -fermi_function(beta,epsilon,mu).", "quantifier": "all real beta<>0, epsilon, mu with |x|<20 or |x|>30", "why_tests_cant": "A derivative over the reals; finite differences only approximate it.", "anchors": ["cqcpy/ft_utils.py:grand_potential0", "cqcpy/ft_utils.py:fermi_function"]}
{"id": "C52", "title": "Zero-temperature limit of the occupations", "statement": "As beta grows, fermi_function tends to 0 above the chemical potential and to 1 below it, and is 1/2 at it, across the switches of formula.", "quantifier": "all epsilon, mu and tolerances", "why_tests_cant": "A limit.", "anchors": ["cqcpy/ft_utils.py:fermi_function"]}
{"id": "C53", "title": "k-point integrals", "statement": "get_chem_solk and get_phys_solk return zeros of the right shape unless momentum is conserved and the named integrals when it is; with anti=True the physicists' ones are antisymmetric under exchange of both the k-points and the orbitals of a pair. get_solk_integrals returns the core Hamiltonian in the orbital basis (Hermitian when hcore is) and, for every k-point triple, the integrals in the order asked for: h2_phys[kp,kq,kr,p,q,r,s] = h2_chem[kp,kr,kq,p,r,q,s], and h2_chem is symmetric under exchange of the electrons.", "quantifier": "all k-point meshes with a consistent conservation table, all orbitals, all AO integrals", "why_tests_cant": "Any mesh, cell and basis; needs pyscf to test, and the repository's tests never call these functions on more than one mesh.", "anchors": ["cqcpy/integrals.py:get_chem_solk", "cqcpy/integrals.py:get_phys_solk", "cqcpy/integrals.py:get_solk_integrals"]}
{"id": "C54", "title": "Solved CCSD equations are the projected Schroedinger equation", "statement": "The residuals returned by ccsd_simple (or ccsd_stanton) all vanish if and only if the wave function exp(T)|0> satisfies <t|H exp(T)|0> = E <t|exp(T)|0> for the reference determinant and every singly and doubly excited determinant t, where E is <0|H|0> plus the value returned by cc_energy. With at most two electrons or two empty orbitals the equation then holds for every determinant: E is an eigenvalue of H with eigenvector exp(T)|0>.", "quantifier": "all numbers of occupied and virtual orbitals, h, antisymmetric g, T1, antisymmetric T2; every determinant", "why_tests_cant": "A test can compare a converged CCSD energy with an exact diagonalisation for one molecule within a tolerance; that the residual equations are equivalent to the projected Schroedinger equation for all Hamiltonians and sizes is an identity between polynomials and operators of unbounded dimension.", "anchors": ["cqcpy/cc_equations.py:ccsd_simple", "cqcpy/cc_equations.py:ccsd_stanton", "cqcpy/cc_energy.py:cc_energy"]}
{"id": "C55", "title": "CCSD density matrices are expectation values", "statement": "Each one- and two-particle density matrix function of CCSD (plain and optimized versions) returns, entry by entry, <0|(c+Lambda) exp(-T) {a+_q a_p} exp(T)|0> respectively {a+_r a+_s a_q a_p} with normal ordered operators; c is the optional argument tfac (default 1) and does not matter in the blocks without that argument. The blocks P_ia and P_ijab, for which there is no function, are the Lambda amplitudes. The complete density matrices follow by adding the stated reference terms.", "quantifier": "all numbers of occupied and virtual orbitals, all T1, antisymmetric T2, L1, antisymmetric L2, all tfac, every block and entry", "why_tests_cant": "The densities are polynomials of degree up to five in the amplitudes with unbounded dimensions; a test compares one contraction or one finite difference with a tolerance.", "anchors": ["cqcpy/cc_equations.py:ccsd_1rdm_ba", "cqcpy/cc_equations.py:ccsd_1rdm_ai", "cqcpy/cc_equations.py:ccsd_2rdm_abij", "cqcpy/cc_equations.py:ccsd_2rdm_bjai_opt"]}
{"id": "C56", "title": "Lambda equations are the left eigenvalue equation", "statement": "The residuals returned by ccsd_lambda_simple, ccsd_lambda_opt, ccsd_lambda_stanton and ccsd_lambda_opt_int (with the intermediates of lambda_int) are <0|(1+Lambda)[exp(-T) H exp(T), tau]|0> for all single and double excitation operators tau. When T solves the CCSD equations they vanish if and only if <0|(1+Lambda) is a left eigenvector of exp(-T) H exp(T) in the space of the reference and all singly and doubly excited determinants, with the CCSD energy as eigenvalue.", "quantifier": "all numbers of occupied and virtual orbitals, h, antisymmetric g, T1, T2, L1, L2", "why_tests_cant": "An identity between polynomials and operators for every size and Hamiltonian.", "anchors": ["cqcpy/cc_equations.py:ccsd_lambda_simple", "cqcpy/cc_equations.py:ccsd_lambda_opt", "cqcpy/cc_equations.py:ccsd_lambda_stanton", "cqcpy/cc_equations.py:ccsd_lambda_opt_int", "cqcpy/cc_equations.py:lambda_int"]}
{"id": "C57", "title": "The CC Lagrangian and the energy from the density matrices are expectation values of H", "statement": "<0|(1+Lambda) exp(-T) H exp(T)|0> equals <0|H|0> plus the value of cc_energy plus the residuals of ccsd_simple contracted with Lambda, and equals <0|H|0> plus the density matrices returned by the program contracted with the Fock matrix and the antisymmetrized integrals.", "quantifier": "all sizes, h, antisymmetric g, T1, T2, L1, L2", "why_tests_cant": "An identity between polynomials and operators for every size and Hamiltonian.", "anchors": ["cqcpy/cc_energy.py:cc_energy", "cqcpy/cc_equations.py:ccsd_simple", "cqcpy/cc_equations.py:ccsd_1rdm_ba"]}
{"id": "C58", "title": "Unrestricted CCSD over spatial orbitals is the projected Schroedinger equation", "statement": "For alpha and beta integrals over n spatial orbitals, ucc_energy returns <0|H exp(T)|0> - <0|H|0>, and the residuals returned by uccsd_stanton all vanish if and only if <x|H exp(T)|0> = E <x|exp(T)|0> for the reference and every determinant x reached by at most two excitations within the spins, where H is the Hamiltonian whose matrix the CI functions compute and E is <0|H|0> plus ucc_energy. If no more than two excitations are possible the equation then holds for every determinant.", "quantifier": "all n, numbers of alpha and beta electrons, integrals (no Hermiticity needed), amplitudes with antisymmetric same-spin doubles; every determinant", "why_tests_cant": "An identity between the array code and operators in a Fock space of unbounded dimension; a test compares one converged energy within a tolerance.", "anchors": ["cqcpy/cc_equations.py:uccsd_stanton", "cqcpy/cc_energy.py:ucc_energy"]}
{"id": "C59", "title": "The CC energy is the first entry of H applied to the CI coefficients of exp(T)", "statement": "For every set of amplitudes, solved or not, the first entry of H_on_vec(ucisd_basis (or ucisdt_basis, ucisdtq_basis), makeCfromT(T)) is <0|H|0> plus ucc_energy(T).", "quantifier": "all n, electrons, integrals, amplitudes, orders 2, 3 and (where makeCfromT is right) 4", "why_tests_cant": "Relates four independent modules for all inputs.", "anchors": ["cqcpy/ci_utils.py:H_on_vec", "cqcpy/ci_utils.py:makeCfromT", "cqcpy/ci_utils.py:ucisd_basis", "cqcpy/cc_energy.py:ucc_energy"]}
{"id": "C60", "title": "CCSD is full CI when only two excitations are possible", "statement": "If min(noa,nva)+min(nob,nvb) <= 2, the vector makeCfromT(T, order=2) is an eigenvector of the matrix applied by H_on_vec in ucisd_basis with eigenvalue <0|H|0> + ucc_energy if and only if the residuals of uccsd_stanton are zero.", "quantifier": "all n, electrons with at most two excitations, integrals, amplitudes", "why_tests_cant": "Relates the CC and CI modules for all Hamiltonians and amplitudes.", "anchors": ["cqcpy/cc_equations.py:uccsd_stanton", "cqcpy/ci_utils.py:H_on_vec", "cqcpy/ci_utils.py:makeCfromT"]}
{"id": "C61", "title": "Solved CCSD amplitudes satisfy the CI rows up to double excitations", "statement": "In the bases of order m = 2, 3, 4, a solution of the uccsd_stanton equations gives coefficients for which the rows of the CI eigenvalue equation hold for all determinants with k <= 2 excitations and k+2 <= m (or with any k if the basis is complete); for m = 4 or a complete basis these rows hold only for solutions.", "quantifier": "all n, electrons, integrals, amplitudes, orders 2-4 where makeCfromT is right, all rows", "why_tests_cant": "Relates the CC and CI modules for all Hamiltonians and amplitudes.", "anchors": ["cqcpy/cc_equations.py:uccsd_stanton", "cqcpy/ci_utils.py:H_on_vec", "cqcpy/ci_utils.py:makeCfromT", "cqcpy/ci_utils.py:ucisdt_basis"]}
{"id": "C62", "title": "HtoK converts Hartree to Kelvin", "statement": "HtoK(T) is T times 315775.0248 K to one part in a million, and linear.", "quantifier": "all real T", "why_tests_cant": "All temperatures; not tested in the repository.", "anchors": ["cqcpy/ft_utils.py:HtoK"]}
{"id": "C63", "title": "Restricted CCSD is the projected Schroedinger equation in spatial orbitals", "statement": "For the spin-free Hamiltonian H = sum h_pq E_pq + 1/2 sum <pq|rs>(E_pr E_qs - delta_qr E_ps) and |Psi> = exp(T)|0>, T = sum t_ai E_ai + 1/2 sum t_abij E_ai E_bj, <0|H|Psi> - <0|H|0> is the number rcc_energy returns, the residuals of rccsd_stanton vanish exactly when (H - E)|Psi> has no component on determinants with up to two excitations, and with one occupied or one virtual orbital solved equations give an exact eigenstate.", "quantifier": "all numbers of spatial orbitals and electron pairs, all integrals with <pq|rs> = <qp|sr>, all amplitudes with t_abij = t_baji, any scalar ring with 1/2 and the inverse factorials used", "why_tests_cant": "The tests compare rccsd_stanton with other programs at converged amplitudes of a few molecules; the property must hold for every Hamiltonian and every amplitude.", "anchors": ["cqcpy/cc_equations.py:rccsd_stanton", "cqcpy/cc_energy.py:rcc_energy"]}
{"id": "C64", "title": "The restricted wave function is a singlet", "statement": "For all restricted amplitudes, solved or not, exp(T)|0> is annihilated by S+, S-, S_z and S^2, and these operators commute with the spin-free Hamiltonian.", "quantifier": "all numbers of orbitals, all amplitudes, all components of the state", "why_tests_cant": "The number of determinants grows exponentially and the amplitudes are arbitrary.", "anchors": ["cqcpy/cc_equations.py:rccsd_stanton", "cqcpy/spin_utils.py:T1_to_spin", "cqcpy/spin_utils.py:T2_to_spin"]}
{"id": "C65", "title": "Unrestricted density matrices are expectation values over spatial orbitals", "statement": "Every block returned by uccsd_1rdm_* and uccsd_2rdm_* holds, for its spin pattern, the expectation values <0|(c + Lambda) exp(-T) {a+ .. a} exp(T)|0> of normal ordered products of operators in alpha and beta spatial orbitals, c being tfac (default 1).", "quantifier": "all numbers of alpha and beta occupied and virtual orbitals, all amplitudes, all elements of all blocks, all tfac", "why_tests_cant": "Unrestricted densities are only compared with the spin-orbital code on random arrays; nothing ties either to expectation values.", "anchors": ["cqcpy/cc_equations.py:uccsd_1rdm_ba", "cqcpy/cc_equations.py:uccsd_1rdm_ai", "cqcpy/cc_equations.py:uccsd_2rdm_bjai", "cqcpy/cc_equations.py:uccsd_2rdm_abij"]}
{"id": "C66", "title": "The unrestricted Lambda equations are the left eigenvalue problem over spatial orbitals", "statement": "The residuals returned by uccsd_lambda_opt are <0|(1 + Lambda)[exp(-T) H exp(T), tau]|0>; for amplitudes that solve uccsd_stanton they vanish if and only if <0|(1 + Lambda) is a left eigenvector of exp(-T) H exp(T) in the space of at most two excitations, with eigenvalue <0|H|0> + ucc_energy.", "quantifier": "all numbers of orbitals and electrons of each spin, all integrals with the exchange symmetry, all amplitudes", "why_tests_cant": "Universal over Hamiltonians and amplitudes; the tests compare array programs with each other.", "anchors": ["cqcpy/cc_equations.py:uccsd_lambda_opt", "cqcpy/cc_equations.py:uccsd_stanton", "cqcpy/cc_energy.py:ucc_energy"]}
{"id": "C67", "title": "The unrestricted Lagrangian", "statement": "<0|(1 + Lambda) exp(-T) H exp(T)|0> is <0|H|0> plus ucc_energy plus the residuals of uccsd_stanton weighted with Lambda (same-spin doubles with weight 1/4, opposite-spin doubles with weight 1).", "quantifier": "all numbers of orbitals and electrons of each spin, all integrals, all amplitudes, solved or not", "why_tests_cant": "Universal over Hamiltonians and amplitudes.", "anchors": ["cqcpy/cc_equations.py:uccsd_stanton", "cqcpy/cc_energy.py:ucc_energy"]}
{"id": "C68", "title": "Restricted density matrices are expectation values over spatial orbitals", "statement": "The arrays returned by rccsd_1rdm_* and rccsd_2rdm_* hold the alpha (equally beta) and alpha-beta expectation values <0|(c + Lambda) exp(-T) {a+ .. a} exp(T)|0> of normal ordered products, with T = sum t_ai E_ai + 1/2 sum t_abij E_ai E_bj and Lambda = sum l_ia E_ia + 1/2 sum l_ijab E_ia E_jb; the values for two equal spins are differences of two entries.", "quantifier": "all numbers of occupied and virtual orbitals, all amplitudes with t_abij = t_baji, all elements of all blocks", "why_tests_cant": "Restricted densities are only compared with the unrestricted code on random arrays; nothing ties either to expectation values of spin-summed operators.", "anchors": ["cqcpy/cc_equations.py:rccsd_1rdm_ai", "cqcpy/cc_equations.py:rccsd_2rdm_bjai", "cqcpy/cc_equations.py:rccsd_2rdm_bjia", "cqcpy/cc_equations.py:rccsd_2rdm_abij"]}
{"id": "C69", "title": "The restricted Lambda equations are the left eigenvalue problem of the closed-shell Hamiltonian", "statement": "The residuals returned by rccsd_lambda_opt are <0|(1 + Lambda)[exp(-T) H exp(T), tau]|0> with H and Lambda written with spin-summed generators, also for spin-summed excitations tau; for amplitudes that solve rccsd_stanton they vanish if and only if <0|(1 + Lambda) is a left eigenvector of exp(-T) H exp(T) in the space of at most two excitations, with eigenvalue <0|H|0> + rcc_energy.", "quantifier": "all numbers of orbitals and electron pairs, all integrals with the exchange symmetry, all amplitudes", "why_tests_cant": "Universal over Hamiltonians and amplitudes; the tests compare array programs with each other.", "anchors": ["cqcpy/cc_equations.py:rccsd_lambda_opt", "cqcpy/cc_equations.py:rccsd_stanton", "cqcpy/cc_energy.py:rcc_energy"]}
{"id": "C70", "title": "The restricted Lagrangian", "statement": "<0|(1 + Lambda) exp(-T) H exp(T)|0> is <0|H|0> plus rcc_energy plus 2 sum l_ia r_ai + sum l_ijab (2 r_abij - r_abji) with the residuals r of rccsd_stanton.", "quantifier": "all numbers of orbitals and electron pairs, all integrals, all amplitudes, solved or not", "why_tests_cant": "Universal over Hamiltonians and amplitudes.", "anchors": ["cqcpy/cc_equations.py:rccsd_stanton", "cqcpy/cc_energy.py:rcc_energy"]}
{"id": "C71", "title": "Independence of the choice of orbitals", "statement": "If all arguments of a public function of cc_equations.py or cc_energy.py are written in other occupied and other virtual orbitals (any invertible matrix and its inverse per orbital space, upper and lower indices), the function returns the old result written in the new orbitals. Energies do not change, and amplitudes that solve the equations still solve them.", "quantifier": "all public functions except the two that pass partly summed intermediates, all sizes, all invertible matrices over any commutative ring with 1/2, all arguments", "why_tests_cant": "The tests use one orbital basis; the property ranges over all changes of basis and all arrays.", "anchors": ["cqcpy/cc_equations.py:ccsd_stanton", "cqcpy/cc_equations.py:ccsd_lambda_opt", "cqcpy/cc_equations.py:uccsd_stanton", "cqcpy/cc_equations.py:rccsd_2rdm_abij", "cqcpy/cc_energy.py:cc_energy", "cqcpy/cc_energy.py:rmp2_energy"]}
{"id": "C72", "title": "Size consistency", "statement": "For two systems that do not interact (all arrays of the whole are direct sums of those of the parts) the energy functions return the sum of the two energies and the residual and connected density functions return the direct sum of the results for the parts; so amplitudes that solve the equations of the parts solve the equations of the whole.", "quantifier": "all public functions except the listed ones with unlinked products, all sizes of both parts, all arguments", "why_tests_cant": "The tests contain single small systems; additivity is a statement about all pairs of systems.", "anchors": ["cqcpy/cc_equations.py:ccsd_stanton", "cqcpy/cc_equations.py:ccd_stanton", "cqcpy/cc_equations.py:rccsd_stanton", "cqcpy/cc_equations.py:uccsd_stanton", "cqcpy/cc_energy.py:cc_energy", "cqcpy/cc_energy.py:ucc_energy"]}
{"id": "C73", "title": "Linearity in the Hamiltonian", "statement": "The residuals, Lambda residuals and energies of c H + d H' are c times those of H plus d times those of H' at the same amplitudes; in particular a change of the unit of energy scales them.", "quantifier": "all residual, Lambda and energy functions, all Hamiltonians, all scalars c and d, all amplitudes", "why_tests_cant": "Universal over pairs of Hamiltonians and scalars.", "anchors": ["cqcpy/cc_equations.py:ccsd_stanton", "cqcpy/cc_equations.py:rccsd_lambda_opt", "cqcpy/cc_equations.py:uccsd_lambda_opt", "cqcpy/cc_energy.py:cc_energy"]}
{"id": "C74", "title": "Exchange of the two spins", "statement": "Exchanging alpha and beta in all arguments of an unrestricted function exchanges alpha and beta in its result, also when the numbers of alpha and beta orbitals differ: residuals, Lambda residuals, all density blocks; the energies do not change.", "quantifier": "all unrestricted functions, all sizes, all arguments (for uccsd_stanton and uccsd_lambda_opt: same-spin doubles symmetric under exchange of the two electrons)", "why_tests_cant": "The alpha and the beta parts are separate code; the tests compare them only through spin-orbital code on single cases.", "anchors": ["cqcpy/cc_equations.py:uccsd_stanton", "cqcpy/cc_equations.py:uccsd_lambda_opt", "cqcpy/cc_equations.py:uccsd_1rdm_ai", "cqcpy/cc_equations.py:uccsd_2rdm_bjai", "cqcpy/cc_energy.py:ucc_energy", "cqcpy/cc_energy.py:ump2_energy"]}
{"id": "C75", "title": "The functions commute with maps of the scalars", "statement": "A map of the scalars that respects addition, multiplication and 1 (complex conjugation, the embedding of real into complex numbers, the value of a number with a derivative) applied to all arguments gives the mapped result; real arguments give real results.", "quantifier": "all public functions, all such maps, all arguments", "why_tests_cant": "Universal over scalars and arrays.", "anchors": ["cqcpy/cc_equations.py:ccsd_stanton", "cqcpy/cc_equations.py:ccsd_lambda_opt", "cqcpy/cc_equations.py:uccsd_2rdm_abij", "cqcpy/cc_energy.py:cc_energy"]}
{"id": "C76", "title": "Degree in Lambda and in the amplitudes of the linearised methods", "statement": "The densities without a reference part are linear in Lambda, the Lambda residuals and the other densities are affine in Lambda, and the residuals of lccd_simple and lccsd_simple are affine in the amplitudes.", "quantifier": "the listed functions, all sizes, all arguments, all coefficients (with sum 1 for affine)", "why_tests_cant": "Universal over arrays; a product of two Lambda or of two amplitudes shows only on suitable inputs.", "anchors": ["cqcpy/cc_equations.py:ccsd_lambda_opt", "cqcpy/cc_equations.py:ccsd_1rdm_ba", "cqcpy/cc_equations.py:ccsd_2rdm_abij", "cqcpy/cc_equations.py:lccd_simple", "cqcpy/cc_equations.py:lccsd_simple"]}
{"id": "C77", "title": "Doubles-only and linearised methods and the second order energy in Fock space", "statement": "For integrals of any Hamiltonian, ccd_simple and ccd_stanton return the projections of exp(-T2) H exp(T2)|0> on the doubly excited determinants; lccsd_simple and lccd_simple return the projections of (H + [H,T])|0> on the singly and doubly (resp. doubly) excited determinants; mp2_energy returns <0|H + [H,T]|0> - <0|H|0>.", "quantifier": "all numbers of occupied and virtual orbitals, all Hamiltonians with antisymmetric integrals, all amplitudes (doubles antisymmetric), all scalars", "why_tests_cant": "The repository only compares values; that the residuals are projections of operators in Fock space is a statement about all sizes and arrays.", "anchors": ["cqcpy/cc_equations.py:ccd_simple", "cqcpy/cc_equations.py:ccd_stanton", "cqcpy/cc_equations.py:lccd_simple", "cqcpy/cc_equations.py:lccsd_simple", "cqcpy/cc_energy.py:mp2_energy"]}
{"id": "C78", "title": "mp2_energy with the library's denominators is second order perturbation theory", "statement": "Let H0 = sum e_p a+_p a_p with orbital energies in the arrays given to D1 and D2, and V = H - H0. Then amplitudes T1 = -F_vo/D1 and T2 = -I_vvoo/D2 give a first order Rayleigh-Schroedinger wave function T|0>, and mp2_energy(T1, T2, F_ov, I_oovv) is <0|V|1> for every first order wave function |1>.", "quantifier": "all sizes, all Hamiltonians with antisymmetric integrals (canonical orbitals or not), all orbital energies with invertible denominators, all scalars", "why_tests_cant": "An identity between operators in a Fock space of any size and array functions for all arrays.", "anchors": ["cqcpy/cc_energy.py:mp2_energy", "cqcpy/utils.py:D1", "cqcpy/utils.py:D2"]}
{"id": "C79", "title": "Double precision accuracy of the occupation functions", "statement": "In IEEE 754 double precision, with any numpy.exp accurate to one unit in the last place, fermi_function and vfermi_function return for all finite beta, epsilon and mu whose difference epsilon - mu does not overflow a finite number in [0, 1] within 2^-49 of the exact Fermi-Dirac value of those doubles (rounding, underflow, overflow of beta*(epsilon-mu) and the cutoffs at |x| = 30 included), and their sum is within 2^-48 of 1. They stay in [0, 1] when the difference overflows unless beta = 0, where they return nan.", "quantifier": "all finite doubles beta, epsilon, mu (about 2^192 inputs), every exp with the stated accuracy", "why_tests_cant": "The input space of doubles is far too large; overflow, underflow and branch boundaries are exactly what samples miss.", "anchors": ["cqcpy/ft_utils.py:fermi_function", "cqcpy/ft_utils.py:vfermi_function", "cqcpy/ft_utils.py:ff", "cqcpy/ft_utils.py:ffv"]}
{"id": "C80", "title": "Double precision accuracy of the grand potential and its derivative", "statement": "In IEEE 754 double precision, with numpy.exp and numpy.log accurate to one unit in the last place, grand_potential0 and dgrand_potential0 return finite numbers for 2^-400 <= |beta| <= 2^400 and |epsilon - mu| <= 2^400, within 2^-48 (1/|beta| + |epsilon - mu|) of the exact grand potential of the level, and within 2^-47 (1/|beta| + |epsilon - mu|)/|beta| of its exact derivative in beta.", "quantifier": "all doubles in the stated ranges, every exp and log with the stated accuracy", "why_tests_cant": "A bound on the rounding error over all inputs, on both sides of the switches at |x| = 20.", "anchors": ["cqcpy/ft_utils.py:grand_potential0", "cqcpy/ft_utils.py:dgrand_potential0", "cqcpy/ft_utils.py:GP0", "cqcpy/ft_utils.py:uGP0", "cqcpy/ft_utils.py:dGP0"]}
{"id": "C81", "title": "CIS and CISD from lccsd_simple and mp2_energy", "statement": "For antisymmetric integrals, lccsd_simple and mp2_energy give the CI sigma vector: <0|H(1+T)|0> is <0|H|0> + mp2_energy, <S|H(1+T)|0> is the singles of lccsd_simple plus <0|H|0> T1, and <D|H(1+T)|0> is its doubles plus <0|H|0> T2 plus the antisymmetrised product of F_ai and T1. Hence (1+T)|0> solves the CISD eigenvalue equations with energy E exactly when E = <0|H|0> + mp2_energy and these residuals equal mp2_energy times the amplitudes; and T1|0> is an eigenvector of H among single excitations (CIS) exactly when lccsd_simple(F, I, T1, 0) minus F_ai is the excitation energy times T1.", "quantifier": "all numbers of orbitals, all Hamiltonians with antisymmetric integrals (Hermitian or not), all amplitudes, all energies E, any commutative ring with 1/2", "why_tests_cant": "An equivalence between two eigenvalue problems over all Hamiltonians and amplitudes; a test compares one converged energy.", "anchors": ["cqcpy/cc_equations.py:lccsd_simple", "cqcpy/cc_energy.py:mp2_energy", "examples/cisd.py", "examples/cis.py"]}
{"id": "C82", "title": "Ring and ladder CCD are the random phase approximations", "statement": "With the denominators of D2 and antisymmetric integrals, amplitudes symmetric under exchange of the electron-hole pairs satisfy D2*T2 + ccd_ring_simple(I, T2) = 0 exactly when the columns of (T2, 1) span an invariant subspace of the particle-hole RPA matrix, and then cc_energy(0, T2) is -1/4 (tr W + tr A), with W the matrix of the RPA on that subspace. Amplitudes antisymmetric in the occupied orbitals satisfy D2*T2 + ccd_ladder_simple(I, T2) = 0 exactly when the columns of (T2, 1) span an invariant subspace of the particle-particle RPA matrix, and then cc_energy is the difference of the traces of its hole-hole block and of its restriction to that subspace.", "quantifier": "all numbers of orbitals, all antisymmetric integrals (Hermitian or not), all orbital energies (degenerate ones too), all amplitudes with the stated symmetry, any commutative ring with 1/2", "why_tests_cant": "An equivalence between nonlinear amplitude equations and an eigenvalue problem for all integrals; a test compares one converged energy.", "anchors": ["cqcpy/cc_equations.py:ccd_ring_simple", "cqcpy/cc_equations.py:ccd_ladder_simple", "cqcpy/cc_energy.py:cc_energy", "cqcpy/utils.py:D2"]}
{"id": "C83", "title": "From a molecule's integrals to coupled cluster theory", "statement": "For every mean field with occupation numbers in any order, eri_blocks(mf) is the argument I that the spin-orbital coupled cluster functions need for the molecule's integrals over spin orbitals ordered occupied alpha, occupied beta, virtual alpha, virtual beta; with it and the Fock matrix, the residuals of ccsd_simple or ccsd_stanton vanish exactly when exp(T)|0> satisfies the projected Schroedinger equation of the molecular Hamiltonian with energy <0|H|0> + cc_energy, where <0|H|0> = sum <i|h|i> + 1/2 sum <ij||ij>. For orbitals with the occupied ones first, get_phys (anti=True for equal spins, anti=False for opposite spins) followed by make_two_e_blocks and make_two_e_blocks_full gives the arguments of the unrestricted and of the restricted functions for the molecular Hamiltonian.", "quantifier": "all sets of atomic integrals with interchangeable electrons, all orbital coefficients (orthonormal or not), all occupation numbers, all amplitudes, any commutative ring with 1/2 and a conjugation", "why_tests_cant": "It joins three modules for all molecules, orbitals and occupations; a test runs the chain on one molecule and compares one number.", "anchors": ["cqcpy/integrals.py:eri_blocks", "cqcpy/integrals.py:get_phys", "cqcpy/ov_blocks.py:make_two_e_blocks", "cqcpy/ov_blocks.py:make_two_e_blocks_full", "cqcpy/cc_equations.py:ccsd_simple", "cqcpy/cc_equations.py:ccsd_stanton", "cqcpy/cc_energy.py:cc_energy"]}
{"id": "C84", "title": "One linearised coupled cluster step gives the third order energy", "statement": "Let H0 be the sum of the orbital energies times number operators and V = H - H0. Start from the first order amplitudes (-F/D1, -I/D2), apply lccsd_simple once with the orbital energies taken off the Fock matrix, add the antisymmetrised product of F and T1 to the doubles, and divide by minus D1 and D2 again: mp2_energy of the result is E2 + E3, the sum of the second and third order energies of Rayleigh-Schroedinger perturbation theory. For Hartree-Fock orbitals one call of lccd_simple is enough and the singles can be left out (MP3).", "quantifier": "all numbers of orbitals, all one-electron integrals, all antisymmetric two-electron integrals (Hermitian or not), all orbital energies whose single and double denominators are invertible, all second order wave functions, any commutative ring with 1/2", "why_tests_cant": "It equates a program's output with an expression in the many-electron state space for all Hamiltonians; a test would compare it with one reference number.", "anchors": ["cqcpy/cc_equations.py:lccsd_simple", "cqcpy/cc_equations.py:lccd_simple", "cqcpy/cc_energy.py:mp2_energy", "cqcpy/utils.py:D1", "cqcpy/utils.py:D2"]}
{"id": "C85", "title": "Rounding errors of the coupled cluster functions are bounded", "statement": "Evaluate any function of cc_equations.py or cc_energy.py in an arithmetic in which every addition, multiplication and fused multiply-add has a relative error of at most u, with each einsum evaluated in any order and with any intermediate arrays. The result has the same shapes as the exact result, and every entry is off by at most ((1+u)^d - 1) m. Here m is the entry that the same function returns for the absolute values of its arguments with all minus signs read as plus signs, and d is the number of roundings. For at most N orbitals per space d is at most c N^e, with c and e listed per function (22 N^3 for ccsd_stanton). For cc_energy d is no^2 nv^2 + 3, for mp2_energy no^2 nv^2 + 2. Double precision (53 bits, round to nearest even) is such an arithmetic with u = 2^-53, complex double precision with 2u + u^2 in the norm |re| + |im|.", "quantifier": "all public functions, all argument values, all numbers of orbitals, all roundings and all evaluation orders of every einsum (no overflow or underflow)", "why_tests_cant": "The bound has to hold for every input, every rounding pattern and every order in which a numerical library may sum; a test observes one of them.", "anchors": ["cqcpy/cc_equations.py", "cqcpy/cc_energy.py:cc_energy", "cqcpy/cc_energy.py:mp2_energy"]}
{"id": "C86", "title": "The contribution functions add fac times a homogeneous contribution in place", "statement": "Each function of cc_equations.py whose name starts with an underscore (such as _S_SD, _D_SSD, _LS_LDTS, _Stanton, _u_Stanton, _rccsd_Lambda_opt) updates the arrays passed first and returns None. There are arrays Z, namely what it adds to zero when fac is left out, such that for arbitrary arrays T it leaves T + fac Z in each of them. If the Hamiltonian blocks are multiplied by h, T1 by s, T2 by t and the Lambda amplitudes by l, it leaves T + fac h^a s^b t^c l^d Z with the exponents its name states (_D_SSD: h s^2 t). It changes no other argument. The exception is _Lambda_Stanton, which adds its contribution without the factor fac.", "quantifier": "all 47 functions, all array contents, all factors fac, h, s, t, l, all numbers of orbitals", "why_tests_cant": "The tests call these functions through the public residual functions, with fac left out and on particular arrays; additivity in the accumulator and the power of every factor are statements about all contents and all factors.", "anchors": ["cqcpy/cc_equations.py:_S_S", "cqcpy/cc_equations.py:_D_SSD", "cqcpy/cc_equations.py:_Stanton", "cqcpy/cc_equations.py:_u_Stanton", "cqcpy/cc_equations.py:_Lambda_Stanton", "cqcpy/cc_equations.py:_Lambda_opt", "cqcpy/cc_equations.py:_uccsd_Lambda_opt", "cqcpy/cc_equations.py:_rccsd_Lambda_opt"]}
{"id": "C87", "title": "Every Lambda contribution is the derivative of one amplitude contribution, and the residuals are sums of contributions", "statement": "For each function of cc_equations.py whose name starts with _LS_ or _LD_ (except _LS_TS) there is one amplitude contribution f and one of L1, L2 such that what it adds to zero is the derivative, with respect to T1 (_LS_) or T2 (_LD_), of that L contracted with what f adds to zero: sum L_ia S_ai or 1/4 sum L_ijab S_abij. For example _LS_LDTSS belongs to _D_SSS and _LD_LDTD_ladder to _D_DD_ladder. _LS_TS plus the block F_ov is the derivative of cc_energy with respect to T1. The public functions lccd_simple, lccsd_simple, ccd_simple, ccd_ladder_simple, ccd_ring_simple, ccsd_simple, ccd_lambda_simple and ccsd_lambda_simple return a block of the Hamiltonian plus the sum of their contributions. With the Hamiltonian multiplied by h, T1 by s, T2 by t and the Lambda amplitudes by l, each contribution enters with h^a s^b t^c l^d, so the result is the expansion of the residual in powers of the amplitudes.", "quantifier": "all 18 pairs of functions and all 8 public functions, all numbers of orbitals, all Hamiltonians and amplitudes with the stated antisymmetry, all directions, all factors h, s, t, l, any commutative ring with 1/2", "why_tests_cant": "The tests compare complete residuals on random numbers, where two wrong contributions can cancel, and two of these functions are called by no public function; the pairing of contributions is an identity between polynomials in all inputs.", "anchors": ["cqcpy/cc_equations.py:_LS_LDTSS", "cqcpy/cc_equations.py:_LD_LD_ladder", "cqcpy/cc_equations.py:_LD_LDTD_ladder", "cqcpy/cc_equations.py:_LS_TS", "cqcpy/cc_equations.py:_D_SSD", "cqcpy/cc_equations.py:ccsd_simple", "cqcpy/cc_equations.py:ccsd_lambda_simple", "cqcpy/cc_energy.py:cc_energy"]}
{"id": "C88", "title": "The CI matrices of the examples give the CIS and CISD states", "statement": "The programs examples/cis.py, cis_H2.py, cisd.py and cisd_Be.py fill a matrix with ci_matrixel over ucis_basis(nmo, na, nb, gs=False) or ucisd_basis(nmo, na, nb). The matrix always exists. (CIS) A vector v satisfies H v = E v exactly when the amplitudes it stands for solve the CIS equations with excitation energy E - <0|H|0>; every vector stands for exactly one set of amplitudes; with the same integrals for both spins and na = nb this means that the sum of the alpha and beta amplitudes solves the singlet and the difference solves the triplet equations of the Tamm-Dancoff approximation, so with const = -Escf + energy_nuc the eigenvalues are the excitation energies the examples print for comparison. (CISD) A vector with first entry 1 stands for amplitudes T1, T2, and it satisfies H v = E v exactly when E = <0|H|0> + mp2_energy(T1, T2, F_ov, I_oovv) and the residuals of lccsd_simple, with the products of the occupied-virtual Fock block and T1 added to the doubles, are that correlation energy times the amplitudes. <0|H|0> is the Hartree-Fock energy expression plus const.", "quantifier": "all numbers of orbitals and of occupied alpha and beta orbitals, all one- and two-electron integrals with exchange symmetry of the same-spin integrals, all constants, all vectors and all E, any commutative ring with 1/2", "why_tests_cant": "No test runs the examples, which need pyscf and compare printed numbers for one molecule each; the claim is about all integrals and about all eigenvectors.", "anchors": ["examples/cis.py", "examples/cis_H2.py", "examples/cisd.py", "examples/cisd_Be.py", "cqcpy/ci_utils.py:ci_matrixel", "cqcpy/ci_utils.py:ucis_basis", "cqcpy/ci_utils.py:ucisd_basis", "cqcpy/cc_equations.py:lccsd_simple", "cqcpy/cc_energy.py:mp2_energy"]}
{"id": "C89", "title": "ump2_energy with the library's denominators is second order perturbation theory over two spins", "statement": "Let H be the Hamiltonian with integrals ha, hb, Ia, Ib, Iab over n spatial orbitals, H0 = sum over spins of e_p a+_p a_p with the orbital energies of each spin, |0> the determinant with the first noa alpha and nob beta orbitals, and V = H - H0. Then the amplitudes T1 = -F_vo/D1 of each spin, T2aa = -I_vvoo/D2, T2bb likewise and T2ab = -J_vvoo/D2u give a first order Rayleigh-Schroedinger wave function T|0>, and ump2_energy(T1, T2, Fa_ov, Fb_ov, Ia_oovv, Ib_oovv, J_oovv) is <0|V|1> for every first order wave function |1>. For closed shells with no Fock elements between virtual and occupied orbitals, rcc_energy with T1 = 0 and T2 = -J_vvoo/D2 is <0|V|1> as well.", "quantifier": "all numbers of orbitals and of alpha and beta electrons, all Hamiltonians with exchange symmetry of the same-spin integrals (canonical orbitals or not), all orbital energies of the two spins with invertible denominators, all scalars", "why_tests_cant": "An identity between operators in a Fock space of any size and array functions for all arrays, and uniqueness over all first order wave functions.", "anchors": ["cqcpy/cc_energy.py:ump2_energy", "cqcpy/utils.py:D1", "cqcpy/utils.py:D2", "cqcpy/utils.py:D2u", "cqcpy/cc_energy.py:rcc_energy"]}
{"id": "C90", "title": "The k-point SCF energy of the example is the energy of the crystal's determinant per k-point", "statement": "Let the crystal be the system of all orbitals of all k-points, with the core Hamiltonian of each k-point and two-electron integrals that are the k-point integrals over nk where momentum is conserved and zero elsewhere. The energy that examples/kpt_hamiltonian.py computes from get_solk_integrals(kmf, 'chem') is energy_nuc plus <0|H|0>/nk, |0> having the nocc lowest orbitals of every k-point doubly occupied. The orbitals of the crystal correspond one to one to pairs of a k-point and an orbital there.", "quantifier": "all numbers of k-points, of atomic orbitals and of occupied and virtual orbitals, all commutative groups of k-points with kconserv(k1, k2, k3) = k1 - k2 + k3, all orbitals, core Hamiltonians and AO integrals with interchangeable electrons, all scalars", "why_tests_cant": "No test runs the example; it compares two printed numbers for one crystal. The claim is for every mesh and every set of integrals.", "anchors": ["examples/kpt_hamiltonian.py", "cqcpy/integrals.py:get_solk_integrals"]}
{"id": "C91", "title": "The k-point MP2 example gives the second order energy of the crystal per k-point", "statement": "For the crystal of C90, orbital energies e_kp, H0 the diagonal operator with these energies and V = H - H0: if no energy denominator is zero and the Fock matrix of each k-point has no elements between virtual and occupied orbitals, then |0> is an eigenstate of H0, a first order wave function exists, and the number printed by examples/kmp2.py is the real part of <0|V|1> divided by nk, for every first order wave function |1>.", "quantifier": "all numbers of k-points and orbitals, all commutative groups of k-points, all complex orbitals and AO integrals with interchangeable electrons, all real orbital energies without zero denominators, real numbers in any commutative ring with 1/2 and inverses of nonzero elements", "why_tests_cant": "No test runs the example, which compares with pyscf for one crystal; the claim relates sums over k-points to an operator identity in a Fock space of any size and is about all first order wave functions.", "anchors": ["examples/kmp2.py", "cqcpy/integrals.py:get_phys_solk"]}
{"id": "C92", "title": "The derivative of the coupled cluster energy is the contraction of the density matrices with the derivative of the Hamiltonian", "statement": "Let F and I depend on a parameter t, let T1(t), T2(t) solve the coupled cluster equations (ccsd_simple or ccsd_stanton returns zero arrays) for all t near t0, and let L1, L2 solve the Lambda equations at t0 (ccsd_lambda_simple, ccsd_lambda_opt or ccsd_lambda_stanton returns zero arrays). Then the derivative of cc_energy at t0 is the contraction of dF/dt and dI/dt with the blocks that the ccsd_1rdm_* and ccsd_2rdm_* functions return at t0. The derivative of the amplitudes does not enter. The same holds to first order in an infinitesimal parameter over any scalars.", "quantifier": "all numbers of occupied and virtual orbitals, all differentiable families of Fock matrices, antisymmetric integrals and amplitudes, all Lambda, both amplitude functions and all three Lambda functions; the infinitesimal form over all scalars with 1/2", "why_tests_cant": "A derivative along every path of Hamiltonians; a finite difference for one molecule has a truncation error and checks one direction.", "anchors": ["cqcpy/cc_energy.py:cc_energy", "cqcpy/cc_equations.py:ccsd_simple", "cqcpy/cc_equations.py:ccsd_stanton", "cqcpy/cc_equations.py:ccsd_lambda_simple", "cqcpy/cc_equations.py:ccsd_lambda_opt", "cqcpy/cc_equations.py:ccsd_lambda_stanton", "cqcpy/cc_equations.py:ccsd_1rdm_ba", "cqcpy/cc_equations.py:ccsd_2rdm_cdab"]}
{"id": "C93", "title": "Every public function is differentiable", "statement": "If the entries of the arguments of a public function of cc_equations.py or cc_energy.py are functions of a real parameter with derivatives at t0, then the entries of its results have derivatives at t0, and value and derivative are what the same function returns when it is run on the pairs (value, derivative) as dual numbers.", "quantifier": "all public functions, all orbital counts, all families of arguments of the documented shapes that are differentiable at t0", "why_tests_cant": "A statement on limits for all differentiable arguments.", "anchors": ["cqcpy/cc_equations.py", "cqcpy/cc_energy.py"]}
{"id": "C94", "title": "Derivatives of the unrestricted and restricted coupled cluster energies are contractions of their density matrices", "statement": "Let the Hamiltonian blocks depend on a parameter t, let the amplitudes solve the equations (uccsd_stanton, resp. rccsd_stanton, returns zero arrays) for all t near t0, and let Lambda solve the Lambda equations at t0 (uccsd_lambda_opt, resp. rccsd_lambda_opt, returns zero arrays). Then the derivative of ucc_energy (rcc_energy) at t0 is the contraction of the derivative of the Hamiltonian with the blocks that the uccsd_1rdm_*, uccsd_2rdm_* (rccsd_1rdm_*, rccsd_2rdm_*) functions return. For arbitrary amplitudes and Lambda, over any scalars, the first order change of energy plus Lambda times residuals is that contraction plus the results of the Lambda function times the change of the amplitudes.", "quantifier": "all numbers of alpha and beta occupied and virtual orbitals, all differentiable families of Hamiltonian blocks with their symmetries and of amplitudes, all Lambda; the infinitesimal form over all scalars with 1/2", "why_tests_cant": "A derivative along every path of Hamiltonians for every number of orbitals; a finite difference has a truncation error and checks one direction, and cannot see blocks that vanish by symmetry for the molecule chosen.", "anchors": ["cqcpy/cc_energy.py:ucc_energy", "cqcpy/cc_energy.py:rcc_energy", "cqcpy/cc_equations.py:uccsd_stanton", "cqcpy/cc_equations.py:rccsd_stanton", "cqcpy/cc_equations.py:uccsd_lambda_opt", "cqcpy/cc_equations.py:rccsd_lambda_opt", "cqcpy/cc_equations.py:uccsd_1rdm_ba", "cqcpy/cc_equations.py:uccsd_2rdm_bjai", "cqcpy/cc_equations.py:rccsd_1rdm_ba", "cqcpy/cc_equations.py:rccsd_2rdm_bjia"]}
{"id": "C95", "title": "Unrestricted and restricted density matrices contracted with the Hamiltonian give the Lagrangian", "statement": "For arbitrary amplitudes and Lambda, the contraction of the blocks returned by the uccsd_1rdm_* and uccsd_2rdm_* functions with the blocks of the Hamiltonian equals ucc_energy plus the sum of Lambda times the residuals that uccsd_stanton returns; likewise for rccsd_1rdm_*, rccsd_2rdm_*, rcc_energy and rccsd_stanton with the closed-shell weights. When the equations are solved the contraction is the energy.", "quantifier": "all numbers of orbitals, all Hamiltonian blocks, amplitudes and Lambda with their symmetries, all scalars with 1/2", "why_tests_cant": "An identity between polynomials in arrays of every size; a test compares numbers for one molecule at convergence, where the residual term is invisible.", "anchors": ["cqcpy/cc_energy.py:ucc_energy", "cqcpy/cc_energy.py:rcc_energy", "cqcpy/cc_equations.py:uccsd_stanton", "cqcpy/cc_equations.py:rccsd_stanton", "cqcpy/cc_equations.py:uccsd_1rdm_ji", "cqcpy/cc_equations.py:uccsd_2rdm_cdab", "cqcpy/cc_equations.py:rccsd_1rdm_ji", "cqcpy/cc_equations.py:rccsd_2rdm_cdab"]}
{"id": "C96", "title": "Coupled cluster density matrices have the traces of a state of the given number of electrons", "statement": "For arbitrary amplitudes and Lambda, the blocks returned by the ccsd_1rdm_* and ccsd_2rdm_* functions, with L1 and L2 as the remaining blocks and completed by the reference determinant, satisfy: the trace of the one-particle density matrix is the number no of occupied orbitals, and summing the two-particle density matrix over the second pair of equal indices gives (no - 1) times the one-particle density matrix. For the uccsd functions this holds for each spin, and the density matrix of pairs of different spin traced over the beta (alpha) index is nob times the alpha (noa times the beta) one-particle matrix. For the rccsd functions the trace over the exchanged pair is in addition the one-particle density matrix itself.", "quantifier": "all numbers of occupied and virtual orbitals of each spin, all amplitudes and Lambda with their symmetries (not only solutions of the equations), all scalars with 1/2", "why_tests_cant": "An identity of every matrix element for arrays of every size; the existing tests contract the density matrices with a Hamiltonian, which does not see errors that cancel in the energy.", "anchors": ["cqcpy/cc_equations.py:ccsd_1rdm_ba", "cqcpy/cc_equations.py:ccsd_1rdm_ji", "cqcpy/cc_equations.py:ccsd_2rdm_cdab", "cqcpy/cc_equations.py:ccsd_2rdm_kaij", "cqcpy/cc_equations.py:uccsd_1rdm_ba", "cqcpy/cc_equations.py:uccsd_2rdm_bjai", "cqcpy/cc_equations.py:rccsd_1rdm_ba", "cqcpy/cc_equations.py:rccsd_2rdm_bjia"]}
{"id": "C97", "title": "Electrons and holes can be exchanged", "statement": "Replace every quantity by its counterpart for holes: occupied and virtual orbitals change places, one-particle arrays are transposed and change sign, bra and ket of two-particle arrays are exchanged. Then every residual that the amplitude and Lambda functions return (linearized, CCD, CCSD, ladder, ring; spin-orbital, unrestricted, restricted) is the exchanged residual, every energy function returns the same number, and every function for a block of a density matrix returns the exchanged array of the function for the exchanged block. The exchanged arguments exist and are valid arguments with no and nv interchanged.", "quantifier": "all numbers of occupied and virtual orbitals of each spin, all Hamiltonian blocks, amplitudes and Lambda with their symmetries, all scalars with 1/2", "why_tests_cant": "It relates runs on two systems of different shapes for every input; a test would need a second molecule whose integrals are the exchanged ones, and shows one number.", "anchors": ["cqcpy/cc_equations.py:ccsd_stanton", "cqcpy/cc_equations.py:ccsd_lambda_opt", "cqcpy/cc_equations.py:uccsd_stanton", "cqcpy/cc_equations.py:rccsd_stanton", "cqcpy/cc_equations.py:rccsd_lambda_opt", "cqcpy/cc_equations.py:ccsd_2rdm_bjai", "cqcpy/cc_equations.py:uccsd_2rdm_bjai", "cqcpy/cc_energy.py:cc_energy", "cqcpy/cc_energy.py:rcc_energy"]}
{"id": "C98", "title": "Orbital energies enter the coupled cluster equations through the energy denominators", "statement": "Add any matrices to the occupied-occupied and virtual-virtual blocks of the Fock matrix. The residuals that the amplitude functions return (linearized, CCD, CCSD; spin-orbital, unrestricted, restricted) change by the commutator of these matrices with the amplitudes, and those of the Lambda functions by the commutator from the other side, whatever the integrals are. If orbital energies are added on the diagonal, the change is utils.D1, D2 or D2u of these energies times the amplitudes, so that the residuals with the energies are zero exactly where denominators times amplitudes equal minus the residuals without them: the fixed points of the iteration T = -R/D are the solutions of the equations.", "quantifier": "all numbers of orbitals, all Hamiltonian blocks, amplitudes and Lambda with their symmetries, all added blocks and energies, all scalars with 1/2", "why_tests_cant": "It relates runs for every pair of Fock matrices that differ in these blocks; a test iterates one molecule to convergence.", "anchors": ["cqcpy/cc_equations.py:ccsd_stanton", "cqcpy/cc_equations.py:ccsd_simple", "cqcpy/cc_equations.py:uccsd_stanton", "cqcpy/cc_equations.py:rccsd_stanton", "cqcpy/cc_equations.py:ccsd_lambda_opt", "cqcpy/cc_equations.py:uccsd_lambda_opt", "cqcpy/cc_equations.py:rccsd_lambda_opt", "cqcpy/utils.py:D1", "cqcpy/utils.py:D2", "cqcpy/utils.py:D2u"]}
{"id": "C99", "title": "Configuration interaction energies are variational", "statement": "For any basis of different determinants with given numbers of alpha and beta electrons, v.(M w) with the matrix M of ci_matrixel elements is the matrix element of the Hamiltonian between the wave functions with coefficients v and w, and v.w is their inner product. So every eigenvalue of M lies above every lower bound of the energy of states with these electrons; a lower bound of the form of a larger basis (its lowest eigenvalue, say) is one for every smaller basis, so enlarging the basis cannot raise the lowest energy; with all determinants the bounds are those of the energy and the eigenvectors solve the Schroedinger equation; for real symmetric integrals states of different energies are orthogonal. For the example scripts, a bound of the CISD matrix lies below the reference energy and below every CIS energy. The same holds for complex orbitals with Hermitian integrals and inner products with a conjugate (the matrix kept in a complex array, see C102): the matrix is Hermitian, eigenvalues are real, lie above every bound and fall when the basis grows.", "quantifier": "all numbers of orbitals and electrons, all integrals with pair symmetry, all bases of the sector, all vectors and bounds; real scalars where energies are compared", "why_tests_cant": "The inequality ranges over all vectors of all bases for all integrals; a test compares two numbers for one molecule.", "anchors": ["cqcpy/ci_utils.py:ci_matrixel", "cqcpy/ci_utils.py:ucis_basis", "cqcpy/ci_utils.py:ucisd_basis", "examples/cis.py", "examples/cisd.py"]}
{"id": "C100", "title": "Second order energies are not positive", "statement": "For real orbitals with an energy gap g > 0 between occupied and virtual orbitals and amplitudes that are minus the couplings over utils.D1, D2 and D2u, mp2_energy, ump2_energy and, for closed shells without singles, rcc_energy return a number that is at most zero, is zero exactly if all couplings are zero, and is at least minus the sum of the squared couplings over the gap (with the factors 1, 1/8 and 1/2 for singles and for doubles of like and unlike spins, 3/2 for closed shells). The same holds for complex orbitals with Hermitian couplings and real orbital energies, where the returned number is real, and the energy printed by examples/kmp2.py for a crystal with Hermitian integrals and a gap is not positive.", "quantifier": "all numbers of occupied and virtual orbitals of each spin, all real orbital energies with a gap, all real or complex couplings (no antisymmetry needed), the amplitudes determined by them", "why_tests_cant": "It is an inequality over all real inputs; a test evaluates one set of integrals.", "anchors": ["cqcpy/cc_energy.py:mp2_energy", "cqcpy/cc_energy.py:ump2_energy", "cqcpy/cc_energy.py:rcc_energy", "cqcpy/utils.py:D1", "cqcpy/utils.py:D2", "cqcpy/utils.py:D2u", "examples/kmp2.py"]}
{"id": "C101", "title": "Occupations and grand potentials are those of the grand canonical ensemble", "statement": "Consider all ways to occupy the given levels, weighted by exp(-beta (E - mu N)). Each element of ff and ffv is the probability that its level is filled or empty, a product of two elements is the probability for the two levels, and the sum of ff is the mean number of electrons, exactly if every |beta (epsilon - mu)| is at most 30 and within exp(-60) per level otherwise. The sum of GP0 is -(1/beta) ln of the partition function (exactly up to 20, within n exp(-40)/|beta| otherwise), the sum of dGP0 and minus the sum of ff are its derivatives in beta and mu, GP0 + beta dGP0 sums to the mean of E - mu N, beta^2 dGP0 sums to the entropy, and for beta > 0 no distribution of electrons has a lower grand potential.", "quantifier": "all lists of level energies of any length, all mu, all beta (not 0 where a quotient by beta occurs), all probability distributions on occupations", "why_tests_cant": "The ensemble has 2^n states for every n and the inequality ranges over all distributions; a test evaluates a few levels.", "anchors": ["cqcpy/ft_utils.py:ff", "cqcpy/ft_utils.py:ffv", "cqcpy/ft_utils.py:GP0", "cqcpy/ft_utils.py:dGP0", "cqcpy/ft_utils.py:fermi_function", "cqcpy/ft_utils.py:grand_potential0"]}
{"id": "C102", "title": "What complex input becomes in real work arrays", "statement": "F_to_spin, T1_to_spin, T2_to_spin, D2_to_spin, int_to_spin, int_to_spin2, s/sa/sb/d/da/db/sasb_on_vec, H_on_vec, gH_on_vec, makeCfromT, gmakeCfromT and the matrix of the CI examples return, for complex input, the real part of the array they define (their result arrays are real), raise for exactly the same arguments, and lose nothing for real input. The unrestricted integral functions do so if the coefficients whose dtype they use are real, and lose nothing if they are complex. So the round trip T1_to_spin, T1_to_spatial is the identity exactly for real amplitudes, and the energies of a complex Hermitian Hamiltonian are not those of the stored matrix.", "quantifier": "all array shapes and complex entries, all bases and orbital indices, all truncation orders", "why_tests_cant": "All tests use real arrays; NumPy drops imaginary parts with a warning only, and the statement ranges over all complex inputs.", "anchors": ["cqcpy/spin_utils.py:F_to_spin", "cqcpy/spin_utils.py:T1_to_spin", "cqcpy/spin_utils.py:T2_to_spin", "cqcpy/spin_utils.py:int_to_spin2", "cqcpy/ci_utils.py:H_on_vec", "cqcpy/ci_utils.py:makeCfromT", "cqcpy/ci_utils.py:gmakeCfromT", "cqcpy/integrals.py:get_chemu", "cqcpy/integrals.py:get_phys_antiu", "examples/cis.py"]}
{"id": "C103", "title": "The functions are Lipschitz on bounded input and the amplitude iteration converges for weak coupling", "statement": "For given numbers of orbitals and a bound on the entries of its arguments, every function of cc_equations.py and cc_energy.py has bounded results, which change by at most a constant times the largest change of an argument entry. For the singles and doubles equations (lccsd_simple, ccsd_simple, ccsd_stanton) there is a ratio that depends on the numbers of orbitals only: if the Fock matrix without orbital energies and the integrals are below this ratio times the gap of the orbital energies, the residuals vanish for exactly one set of antisymmetric amplitudes with entries up to 1, and the iteration T := T - residual / (D1 or D2) from zero has an error of at most 2^-k after k passes; cc_energy converges at the same rate. The same holds for the Lambda functions at any amplitudes with entries up to 1, for the doubles equations (lccd_simple, ccd_simple, ccd_stanton), for closed shells (rccsd_stanton, rccsd_lambda_opt) with amplitudes symmetric under the exchange of the electrons, and for the unrestricted functions (uccsd_stanton, uccsd_lambda_opt) with the denominators D1, D2 and D2u. For a closed shell of any size both iterations can always be carried out, and each pass of the unrestricted one gives the spin blocks of the same pass of the restricted one.", "quantifier": "all orbital numbers, all real Hamiltonians below the ratio, all orbital energies with the gap, all histories of the iteration and all pass numbers", "why_tests_cant": "Tests call the functions on single inputs; convergence and uniqueness speak of all iterates, of all other candidate solutions and of all weakly coupled Hamiltonians.", "anchors": ["cqcpy/cc_equations.py:ccsd_simple", "cqcpy/cc_equations.py:ccsd_stanton", "cqcpy/cc_equations.py:lccsd_simple", "cqcpy/cc_equations.py:ccsd_lambda_simple", "cqcpy/cc_equations.py:ccsd_lambda_opt", "cqcpy/cc_equations.py:ccsd_lambda_stanton", "cqcpy/cc_energy.py:cc_energy", "cqcpy/utils.py:D1", "cqcpy/utils.py:D2", "cqcpy/cc_equations.py:ccd_stanton", "cqcpy/cc_equations.py:rccsd_stanton", "cqcpy/cc_equations.py:rccsd_lambda_opt", "cqcpy/cc_equations.py:uccsd_stanton", "cqcpy/cc_equations.py:uccsd_lambda_opt", "cqcpy/utils.py:D2u"]}
