notes = {
 'C05': 'ccd_ring_simple is the exception: refuted by a concrete case over the rationals.',
 'C06': 'same theorem as C07: [returns] includes that the argument arrays are unchanged.',
 'C31': 'also proved: the exchange symmetry of the same-spin integrals is needed.',
 'C33': 'the code does not compute <bra|H|ket>; the theorems say exactly when it does and what it computes otherwise.',
 'C36': 'order 4 of makeCfromT: the exact missing term is proved, with a concrete refutation; gmakeCfromT is right for order 4.',
 'C85': 'rounding to 53 bits with unbounded exponent range: no overflow or underflow.',
 'C86': '_Lambda_Stanton is the exception: what it does is proved, and that it does not scale with fac is shown on a concrete case.',
 'C07': 'all 81 signatures in CCShapes.public_functions; ccsd_pt_simple raises.',
}
partial = {}
na = {}
