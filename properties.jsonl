{"id": "C01", "title": "field2bits_strict: bits always encode the value", "statement": "Whenever the constraints emitted by field2bits_strict hold, all 254 result bits are 0 or 1 and their weighted sum equals the input variable in the field; and running the witness generator on any field value yields an assignment satisfying every emitted constraint, with the bits of the canonical representative, touching only the gadget's own variables.", "quantifier": "all assignments to the circuit variables (satisfying or not), all field values, all placements of the gadget on a protoboard", "why_tests_cant": "2^254 values and arbitrary malicious assignments; tests only run the honest witness on three values", "anchors": ["src/gadgets/field2bits_strict.cpp: field2bits_strict::generate_r1cs_constraints, generate_r1cs_witness", "src/test/test_field2bits.cpp"]}
{"id": "C02", "title": "field2bits_strict: decomposition is unique", "statement": "For every value of the input variable there is exactly one satisfying assignment of the 254 result bits (the binary digits of the representative below the field modulus): a prover cannot substitute the digits of value+modulus.", "quantifier": "all field values and all satisfying assignments", "why_tests_cant": "unit tests never try adversarial bit vectors; uniqueness quantifies over every satisfying assignment", "anchors": ["src/gadgets/field2bits_strict.cpp: field2bits_strict", "src/gadgets/field2bits_strict.hpp (documented purpose)"]}
{"id": "C03", "title": "1-bit and 2-bit lookup gadgets return the selected table entry", "statement": "For every table of 2 (4) field constants and boolean selector bits, the lookup constraint holds iff the result variable equals table[b0] (table[b0+2*b1]); the witness generator always produces that value and touches only the result variable. With a selector that is not a bit the 1-bit witness generator reads out of bounds whenever the low 64-bit word of the selector is at least 2, and the 2-bit one aborts.", "quantifier": "all constant tables, all bit assignments, all values of the result variable", "why_tests_cant": "tables range over p^2 (p^4) constants; soundness is about every assignment, tests only run honest ones", "anchors": ["src/gadgets/lookup_1bit.cpp", "src/gadgets/lookup_2bit.cpp"]}
{"id": "C04", "title": "3-bit and signed 3-bit lookup gadgets return the selected table entry", "statement": "For every table of 8 constants and boolean selectors the 3-bit lookup constraints hold for some auxiliary product iff result = table[b0+2*b1+4*b2]; for the signed lookup over 4 constants result = table[b0+2*b1] when b2=0 and its negation when b2=1; honest witnesses satisfy the constraints.", "quantifier": "all tables, all boolean selector assignments, all result/auxiliary values", "why_tests_cant": "constants and assignments range over the whole field", "anchors": ["src/gadgets/lookup_3bit.cpp", "src/gadgets/lookup_signed_3bit.cpp"]}
{"id": "C05", "title": "IsNonZero decides x != 0", "statement": "The IsNonZero constraints are satisfiable by some multiplier iff the result variable is 1 for x != 0 and 0 for x = 0; the witness generator satisfies them for every x.", "quantifier": "all field values of x, all candidate results and multipliers", "why_tests_cant": "requires the result for all p values and all malicious assignments; tests check 3 values", "anchors": ["src/gadgets/isnonzero.cpp: IsNonZero"]}
{"id": "C06", "title": "Merkle path selector swaps exactly when is_right is set", "statement": "For a boolean is_right the selector constraints hold iff (left,right) = (input,path) when is_right=0 and (path,input) when is_right=1; the witness generator satisfies them.", "quantifier": "all input/path values and all assignments of left/right", "why_tests_cant": "soundness over all assignments", "anchors": ["src/gadgets/merkle_tree.cpp: merkle_path_selector"]}
{"id": "C07", "title": "Merkle path computation equals the fold of the hash along the path", "statement": "For every depth d>0, d boolean address bits, IVs, leaf and path, any satisfying assignment of the path-computing gadget gives a root equal to hashing the leaf upwards with the sibling on the side chosen by each address bit; construction rejects depth 0 and mismatched address/IV lengths; the honest witness satisfies the constraints.", "quantifier": "all depths, leaves, siblings, IVs, address bits and assignments", "why_tests_cant": "unbounded depth and adversarial assignments; the test covers depth 1", "anchors": ["src/gadgets/merkle_tree.hpp: markle_path_compute, merkle_path_authenticator", "src/gadgets/merkle_tree.cpp"]}
{"id": "C08", "title": "Merkle authenticator binds leaf to root", "statement": "If the authenticator's constraints hold for two leaves at the same boolean address against the same root then either the leaves are equal or the two paths exhibit a collision of the compression function; and when the computed root differs from the expected root no assignment of the remaining variables satisfies the constraints.", "quantifier": "all depths, pairs of leaves/paths, addresses and assignments", "why_tests_cant": "a security statement over all pairs of satisfying assignments", "anchors": ["src/gadgets/merkle_tree.hpp: merkle_path_authenticator"]}
{"id": "C09", "title": "one_of_n proves set membership", "statement": "Whenever the constraints of one_of_n hold, our_item equals one of the listed items, whatever order the caller generated constraints and witness in.", "quantifier": "all item lists of every length, all orders of witness/constraint generation, all satisfying assignments", "why_tests_cant": "a soundness claim over adversarial assignments and call orders; the test runs one honest order", "anchors": ["src/gadgets/one_of_n.hpp: one_of_n", "src/test/test_one_of_n.cpp"]}
{"id": "C10", "title": "subadd: transfers conserve the total and cannot over/underflow (range-checked inputs)", "statement": "For n up to the asserted limit and inputs A,B,N < 2^n, the subadd constraints are satisfiable iff N<=A and B+N<2^n (over the integers), and then X=A-N and Y=B+N as integers; the honest witness satisfies them exactly in that case.", "quantifier": "all n allowed by the size assertion, all A,B,N < 2^n and all satisfying assignments", "why_tests_cant": "2^(3n) inputs and adversarial auxiliary bits, including the wrap-around of the 254-bit packing", "anchors": ["src/gadgets/subadd.cpp: subadd_gadget", "src/gadgets/subadd.hpp"]}
{"id": "C11", "title": "subadd: overflow protection without input range checks", "statement": "The constraints of subadd alone (no range constraint on the inputs) guarantee that X and Y are n-bit numbers with no field wrap-around.", "quantifier": "all field values of A, B, N and all satisfying assignments", "why_tests_cant": "adversarial inputs outside the n-bit range are never exercised by tests", "anchors": ["src/gadgets/subadd.hpp (documented 'Prevents underflows and overflows')", "src/gadgets/subadd.cpp"]}
{"id": "C12", "title": "sha256_many padding: honest layout is SHA-256 padding", "statement": "For every non-empty message whose bit length is a multiple of 8, the blocks built by bits2blocks_padded, read with the values assigned at construction, are exactly message || 1 || 0* || 64-bit big-endian length with the least number of 512-bit blocks; other lengths are rejected.", "quantifier": "all message lengths and contents", "why_tests_cant": "unbounded message length, block boundaries at every residue", "anchors": ["src/utils.cpp: bits2blocks_padded", "src/gadgets/sha256_many.cpp: sha256_many"]}
{"id": "C13", "title": "sha256_many padding: padding is enforced by constraints", "statement": "Every assignment satisfying the constraints emitted for the padding has the SHA-256 padding pattern in the non-message positions, so the digest is a function of the message bits.", "quantifier": "all message lengths and all satisfying assignments", "why_tests_cant": "concerns malicious assignments to padding variables", "anchors": ["src/utils.cpp: bits2blocks_padded"]}
{"id": "C14", "title": "MiMC gadgets compute the MiMC cipher", "statement": "For both exponents (5 and 7) and every non-empty list of round constants, any satisfying assignment of the MiMC gadget has result = MiMC_C(x,k) where each round maps x to (x+k+c)^e and k is added at the end; the witness generator satisfies the constraints for every x and k; an empty constant list is undefined behaviour.", "quantifier": "all plaintexts, keys, round-constant lists, assignments", "why_tests_cant": "all p^2 inputs and adversarial intermediate values", "anchors": ["src/gadgets/mimc.hpp: MiMCe5_round, MiMCe7_round, MiMC_gadget"]}
{"id": "C15", "title": "MiMC is a permutation for each key", "statement": "For every key and list of round constants the function computed by the MiMC gadget (e=5 and e=7) is a bijection of the field in the plaintext.", "quantifier": "all keys, constant lists, pairs of plaintexts", "why_tests_cant": "bijectivity over a 254-bit field", "anchors": ["src/gadgets/mimc.hpp", "ethsnarks/mimc/permutation.py (TODO: assert gcd(p-1,e)==1)"]}
{"id": "C16", "title": "MiMC hash gadget is the Miyaguchi-Preneel chain", "statement": "For every IV and non-empty message list, any satisfying assignment of the hash gadget yields the value of the chain k <- k + m + E_k(m) over the messages in order; the honest witness satisfies it; an empty message list is undefined behaviour.", "quantifier": "all message lengths, IVs, messages and assignments", "why_tests_cant": "unbounded message count and adversarial assignments", "anchors": ["src/gadgets/onewayfunction.hpp: MiyaguchiPreneel_OWF", "src/gadgets/mimc.hpp: MiMC_hash_gadget"]}
{"id": "C17", "title": "Poseidon gadget computes the Poseidon permutation", "statement": "For all round constants and mixing matrices and all inputs, any satisfying assignment of the Poseidon gadget has outputs equal to the reference permutation (add constant, x^5 on all or the first element, matrix mix; zero-padded inputs), and the honest witness satisfies all constraints.", "quantifier": "all parameters (width, full/partial round counts, constants, matrix), inputs and assignments", "why_tests_cant": "adversarial assignments over hundreds of intermediate variables", "anchors": ["src/gadgets/poseidon.hpp: FifthPower_gadget, Poseidon_Round, Poseidon_gadget_T"]}
{"id": "C18", "title": "Shamir polynomial gadget evaluates the polynomial (honest prover)", "statement": "For every input and coefficient list of length at least 3 the witness generator of shamir_poly satisfies its constraints and sets the result to sum alpha_i * input^i; a coefficient list of length 2 (accepted by the assertion) indexes out of bounds.", "quantifier": "all coefficient-list lengths and values", "why_tests_cant": "unbounded degree", "anchors": ["src/gadgets/shamir_poly.hpp: shamir_poly"]}
{"id": "C19", "title": "Shamir polynomial gadget soundness", "statement": "Every assignment satisfying the constraints of shamir_poly has result = sum alpha_i * input^i.", "quantifier": "all coefficient lists and satisfying assignments", "why_tests_cant": "soundness over adversarial assignments to intermediate powers", "anchors": ["src/gadgets/shamir_poly.hpp: generate_r1cs_constraints"]}
{"id": "C20", "title": "Twisted Edwards addition is complete and closed on the curve", "statement": "For any two points satisfying the curve equation with the Baby-JubJub parameters, the addition and doubling routines never divide by zero and return a point on the curve.", "quantifier": "all pairs of curve points", "why_tests_cant": "about 2^508 pairs; exceptional cases are the classical failure of curve code", "anchors": ["src/jubjub/point.cpp: EdwardsPoint::add, dbl", "src/jubjub/params.hpp"]}
{"id": "C21", "title": "Edwards points form a commutative group", "statement": "Point addition on the curve is commutative and associative, infinity is neutral, neg is the inverse, and dbl(P) = add(P,P).", "quantifier": "all triples of curve points", "why_tests_cant": "all triples of points of a 254-bit curve", "anchors": ["src/jubjub/point.cpp: add, dbl, neg, infinity"]}
{"id": "C22", "title": "PointAdder and PointDoubler gadgets compute the group operation", "statement": "For on-curve inputs, an assignment satisfies the PointAdder (PointDoubler) constraints iff its result variables are the coordinates of the sum (double), in particular the result is unique; the witness generators satisfy the constraints.", "quantifier": "all on-curve inputs and all assignments of the gadget's variables", "why_tests_cant": "adversarial intermediate assignments over the whole curve", "anchors": ["src/jubjub/adder.cpp: PointAdder", "src/jubjub/doubler.cpp: PointDoubler"]}
{"id": "C23", "title": "IsOnCurve accepts exactly the curve points", "statement": "The IsOnCurve constraints are satisfiable for coordinates (x,y) iff a*x^2+y^2 = 1+d*x^2*y^2; the witness generator satisfies them iff the point is on the curve.", "quantifier": "all coordinate pairs and assignments", "why_tests_cant": "p^2 coordinate pairs", "anchors": ["src/jubjub/isoncurve.cpp: IsOnCurve"]}
{"id": "C24", "title": "PointValidator rejects low-order points", "statement": "If the PointValidator constraints hold for (x,y), the point is on the curve and 8*(x,y) is not the identity; and for every on-curve point with 8P having non-zero x the honest witness satisfies the constraints.", "quantifier": "all coordinate pairs and satisfying assignments", "why_tests_cant": "adversarial points and assignments", "anchors": ["src/jubjub/validator.cpp: PointValidator", "src/jubjub/notloworder.cpp: NotLowOrder"]}
{"id": "C25", "title": "ScalarMult gadget computes n*P", "statement": "For every on-curve P and every list of at least two boolean scalar bits, any satisfying assignment of ScalarMult has result = (sum 2^i b_i)*P in the curve group; the honest witness satisfies the constraints.", "quantifier": "all scalars of every bit length, all curve points, all satisfying assignments", "why_tests_cant": "unbounded bit length, all points, adversarial assignments", "anchors": ["src/jubjub/scalarmult.cpp: ScalarMult", "src/jubjub/conditional_point.cpp"]}
{"id": "C26", "title": "Fixed-base multiplication computes n*Base", "statement": "For every on-curve base point and even-length scalar of at least 4 boolean bits, any satisfying assignment of fixed_base_mul has result = (sum 2^i b_i)*Base; the honest witness satisfies it; a 2-bit scalar (accepted by the assertion) is undefined behaviour when the result is read.", "quantifier": "all scalar lengths and values, all base points, all assignments", "why_tests_cant": "unbounded scalar length, adversarial assignments", "anchors": ["src/jubjub/fixed_base_mul.cpp: fixed_base_mul"]}
{"id": "C27", "title": "Commitment gadget computes the sum of scalar multiples", "statement": "For every list of at least two on-curve points and as many boolean scalars of even length at least 4, any satisfying assignment of Commitment has result = sum_i (value of scalar_i)*P_i in the curve group; the honest witness satisfies the constraints.", "quantifier": "all point lists, scalar lengths and values, all assignments", "why_tests_cant": "unbounded list length, adversarial assignments", "anchors": ["src/jubjub/commitment.cpp: Commitment"]}
{"id": "C28", "title": "Edwards/Montgomery conversions are inverse to each other", "statement": "For every on-curve Edwards point other than those excluded by the assertions, as_montgomery yields a point on the Montgomery curve and as_edwards of it returns the original point; the MontgomeryToEdwards gadget's satisfying assignments are exactly that map when its denominators are non-zero.", "quantifier": "all curve points and all assignments", "why_tests_cant": "all points of the curve", "anchors": ["src/jubjub/point.cpp: EdwardsPoint::as_montgomery, MontgomeryPoint::as_edwards", "src/jubjub/montgomery.cpp: MontgomeryToEdwards"]}
{"id": "C29", "title": "MontgomeryAdder is sound for every pair of points", "statement": "Any assignment satisfying the MontgomeryAdder constraints has a result equal to the Montgomery-curve sum of its two input points.", "quantifier": "all pairs of Montgomery points (including equal abscissae) and all satisfying assignments", "why_tests_cant": "exceptional cases (equal x) need adversarial inputs", "anchors": ["src/jubjub/montgomery.cpp: MontgomeryAdder"]}
{"id": "C30", "title": "Windowed Pedersen gadget computes the windowed sum", "statement": "For every non-empty list of 3-bit windows (at least two) over on-curve base points, the result of fixed_base_mul_zcash (as used by PedersenHash) under any satisfying assignment whose intermediate Montgomery additions are non-exceptional equals the sum over windows of (+/-)(1..4)*16^j*Base_k with a new base every 62 windows.", "quantifier": "all numbers of windows, bit contents, base points, assignments", "why_tests_cant": "bookkeeping of segments at every window count (62k, 62k+1, ...) and adversarial assignments", "anchors": ["src/jubjub/fixed_base_mul_zcash.cpp", "src/jubjub/pedersen_hash.cpp"]}
{"id": "C31", "title": "Window/base-point bookkeeping never indexes out of range", "statement": "For every number n>=2 of 3-bit windows and a base-point list of the required size, building and running fixed_base_mul_zcash never reads outside its vectors, and each window uses exactly the table of its own position; with one window the result accessor is undefined behaviour.", "quantifier": "all window counts", "why_tests_cant": "unbounded window counts and chunk boundaries", "anchors": ["src/jubjub/fixed_base_mul_zcash.cpp", "src/jubjub/fixed_base_mul_zcash.hpp: basepoints_required"]}
{"id": "C32", "title": "basepoints_required is the ceiling of bits/186", "statement": "For every number of bits that the API accepts, basepoints_required returns the least number of base points covering ceil(bits/3) windows of 62 per base.", "quantifier": "all size_t bit counts", "why_tests_cant": "single-precision rounding only misbehaves at large values", "anchors": ["src/jubjub/fixed_base_mul_zcash.hpp: basepoints_required (ceilf)"]}
{"id": "C33", "title": "EdDSA gadgets accept exactly the verification equation", "statement": "For on-curve base point, A and R and boolean s and message, any satisfying assignment of the EdDSA gadgets has R on the curve and not of low order and satisfies s*B = R + h*A in the curve group, where h is a 254-bit decomposition of the gadget's Pedersen hash of 254-bit decompositions of R.x, A.x and of the message (hash); every such opening extends to a satisfying assignment, and the honest witness generator uses the canonical decompositions and satisfies the constraints exactly when the equation holds. (Whether h is determined by R, A, M is C34.)", "quantifier": "all keys, signatures, messages, assignments", "why_tests_cant": "all signatures and adversarial assignments", "anchors": ["src/jubjub/eddsa.cpp: EdDSA_Verify, PureEdDSA, EdDSA_HashRAM_gadget"]}
{"id": "C34", "title": "EdDSA signature challenge is determined by (R,A,M)", "statement": "For fixed R, A and message, the hash scalar h used by the EdDSA gadget is the same in every satisfying assignment.", "quantifier": "all satisfying assignments", "why_tests_cant": "concerns non-canonical bit decompositions chosen by a malicious prover", "anchors": ["src/jubjub/eddsa.cpp", "src/jubjub/pedersen_hash.cpp: PedersenHashToBits", "src/gadgets/field2bits_strict.cpp"]}
{"id": "C35", "title": "from_y_always/from_hash return curve points", "statement": "Whenever from_y_always(y) returns, the returned point is on the curve, its y coordinate is the first y+i (i<100) admitting a solution, and its x is the non-'negative' root; from_hash returns 8 times such a point, hence a point on the curve.", "quantifier": "all y, all byte strings, all square-root choices", "why_tests_cant": "the search behaviour over the whole field", "anchors": ["src/jubjub/point.cpp: from_y_always, from_hash"]}
{"id": "C36", "title": "make_basepoint inputs are injective", "statement": "Distinct (name, sequence) pairs accepted by make_basepoint lead to distinct hashed byte strings.", "quantifier": "all names up to 28 bytes and sequence numbers up to 0xFFFF", "why_tests_cant": "collisions between padded names are not enumerated by tests", "anchors": ["src/jubjub/point.cpp: EdwardsPoint::make_basepoint"]}
{"id": "C37", "title": "bytes_to_bv and bv_to_bytes are inverse", "statement": "For every byte string bv_to_bytes(bytes_to_bv(x)) = x, and for every bit vector whose length is a multiple of 8 bytes_to_bv(bv_to_bytes(b)) = b, with most significant bit first.", "quantifier": "all byte strings and bit vectors", "why_tests_cant": "unbounded length", "anchors": ["src/utils.cpp: bytes_to_bv, bv_to_bytes"]}
{"id": "C38", "title": "int_list_to_bits concatenates each word at its own width", "statement": "int_list_to_bits(words, sizes) returns the concatenation of the sizes[i]-bit representations of words[i] as its documentation says, without reading or shifting out of range.", "quantifier": "all word lists and size lists of equal length", "why_tests_cant": "list lengths and mixed word sizes", "anchors": ["src/utils.cpp: int_list_to_bits, bit_list_to_ints"]}
{"id": "C39", "title": "hex_to_bytes decodes exactly the hexadecimal strings that fit", "statement": "hex_to_bytes returns true iff the input has at least two characters and (after an optional 0x) exactly two hex digits per output byte; it then writes exactly those bytes and nothing else in the buffer; it returns false without writing when the length does not fit and throws on a non-hex digit; encoding then decoding is the identity (with the 0x prefix, or for a non-empty byte string).", "quantifier": "all strings and output sizes", "why_tests_cant": "unbounded strings, all malformed inputs", "anchors": ["src/utils.cpp: hex_to_bytes, char2int"]}
{"id": "C40", "title": "bytes_to_FieldT is big-endian reduction modulo p", "statement": "For every byte string of at most 32 bytes the bytes_to_FieldT conversions return the big-endian (little-endian) integer reduced modulo p; longer inputs are rejected.", "quantifier": "all byte strings", "why_tests_cant": "2^256 inputs, values above the modulus", "anchors": ["src/utils.cpp: bytes_to_FieldT_bigendian, bytes_to_FieldT_littleendian"]}
{"id": "C41", "title": "Proof/key JSON coordinate order round-trips", "statement": "For every affine G1/G2 point, the coordinate list produced by the exporter is read back by the importer as the same point; hence a verification key or proof survives export and import.", "quantifier": "all points and key sizes (any number of gammaABC entries)", "why_tests_cant": "unbounded number of public inputs and all coordinates", "anchors": ["src/export.cpp: outputPointG1AffineAsHex, outputPointG2AffineAsHex, vk2json, proof_to_json", "src/import.cpp: create_G1, create_G2, vk_from_json, proof_from_json"]}
{"id": "C42", "title": "G2 export normalises every projective representative", "statement": "For every non-infinity G2 point in any projective representation, the exported coordinates are the affine coordinates of the point.", "quantifier": "all projective representatives (X,Y,Z)", "why_tests_cant": "depends on the shape of Z in Fq2 which tests do not vary", "anchors": ["src/export.cpp: outputPointG2AffineAsHex (to_affine_coordinates guard)"]}
{"id": "C43", "title": "verify reports success only for accepted proofs", "statement": "The verification entry points (CLI, stub, shared library) report success iff the key and proof parse and the number of inputs matches the key and the pairing equation holds with well-formed proof points; every other path has a non-success result.", "quantifier": "all argument counts, file outcomes, parse outcomes and verifier outcomes", "why_tests_cant": "cross product of failure points", "anchors": ["src/stubs.cpp: stub_verify, stub_main_verify", "src/verify.cpp", "src/verify_dll.cpp"]}
{"id": "C44", "title": "Groth16 completeness", "statement": "For every constraint system, satisfying assignment, toxic waste (with gamma, delta non-zero) and prover randomness, if the prover does not abort then the verifier accepts its proof for the primary input.", "quantifier": "all constraint systems, assignments, randomness", "why_tests_cant": "all systems and all randomness", "anchors": ["src/r1cs_gg_ppzksnark_zok/r1cs_gg_ppzksnark_zok.tcc: generator, prover, verifier_strong_IC"]}
{"id": "C45", "title": "Groth16 prover never aborts on a satisfied system", "statement": "The prover produces a proof for every satisfied constraint system.", "quantifier": "all satisfied systems", "why_tests_cant": "depends on the degree of the quotient polynomial", "anchors": ["src/r1cs_gg_ppzksnark_zok/r1cs_gg_ppzksnark_zok.tcc: prover assert on coefficients_for_H"]}
{"id": "C46", "title": "Verifier rejects the wrong number of public inputs", "statement": "verifier_strong_IC returns false for every proof whenever the number of primary inputs differs from the key's, and its decision is exactly the pairing equation on the linear combination of the key's gammaABC with the inputs otherwise.", "quantifier": "all keys, inputs, proofs", "why_tests_cant": "all lengths and group elements", "anchors": ["src/r1cs_gg_ppzksnark_zok/r1cs_gg_ppzksnark_zok.tcc: online_verifier_strong_IC, online_verifier_weak_IC"]}
{"id": "C47", "title": "Arithmetic circuits: evaluated witness satisfies the constraints", "statement": "For every circuit made of add, mul, const-mul, const-mul-neg, xor, or, assert (with true assertion), pack, split and 2/4-entry table instructions whose boolean-typed wires carry booleans, the assignment computed by the reader from any input file satisfies all constraints the reader emits.", "quantifier": "all circuits (any number and order of instructions in dependency order) and all inputs", "why_tests_cant": "unbounded circuits", "anchors": ["src/pinocchio/circuit_reader.cpp: parseCircuit, evalInstruction, makeConstraints"]}
{"id": "C48", "title": "Arithmetic circuits: constraints determine the outputs", "statement": "For every circuit of those instructions, any satisfying assignment agrees with the evaluation of the circuit on the values of its input wires (soundness of the emitted constraints).", "quantifier": "all circuits and all satisfying assignments", "why_tests_cant": "adversarial assignments over unbounded circuits", "anchors": ["src/pinocchio/circuit_reader.cpp: add*Constraint"]}
{"id": "C49", "title": "zerop instruction", "statement": "For a zerop gate the evaluated witness satisfies the emitted constraints for every input value and the output wire is 1 iff the input is non-zero.", "quantifier": "all input values", "why_tests_cant": "tests do not cover non-zero inputs with constraint checking", "anchors": ["src/pinocchio/circuit_reader.cpp: addNonzeroCheckConstraint, evalInstruction"]}
{"id": "C50", "title": "8-entry table instruction", "statement": "For a table gate with three inputs the evaluated witness satisfies the constraints and every satisfying assignment has output = table[index].", "quantifier": "all tables, inputs and assignments", "why_tests_cant": "adversarial assignments to unlinked variables", "anchors": ["src/pinocchio/circuit_reader.cpp: addTableConstraint"]}
{"id": "C51", "title": "Circuit outputs are public", "statement": "The values of the wires declared 'output' are part of the primary input, as the circuit format documents.", "quantifier": "all circuits", "why_tests_cant": "quantifies over declaration orders", "anchors": ["src/pinocchio/circuit_reader.cpp: parseCircuit (set_input_sizes)", "src/pinocchio/README.md"]}
{"id": "C52", "title": "Key generation and proving number variables identically", "statement": "For every circuit file the variable numbering used when generating keys (no inputs) equals the numbering used when proving (with inputs), so the primary/auxiliary split and the constraint system coincide.", "quantifier": "all circuits and inputs", "why_tests_cant": "two code paths over arbitrary circuits", "anchors": ["src/pinocchio/circuit_reader.cpp: varNew, varGet, parseCircuit", "src/pinocchio/main.cpp"]}
{"id": "C53", "title": "BLAKE2b streaming is chunking-invariant", "statement": "For every key, output length and message, feeding the message to blake2b_update in any sequence of chunks gives the same digest as a single call, that digest is the one RFC 7693 defines, no access leaves the 128-byte buffer, and illegal parameters are rejected.", "quantifier": "all messages and all ways to split them", "why_tests_cant": "unbounded messages and splits", "anchors": ["src/crypto/blake2b.c: blake2b_init, blake2b_update, blake2b_final"]}
{"id": "C54", "title": "SHA-256 streaming is chunking-invariant and pads per the standard", "statement": "For every message, feeding it to SHA256_Update in any sequence of chunks then SHA256_Final equals the Merkle-Damgard iteration of the compression function over the standard padding of the message.", "quantifier": "all messages (length below 2^61 bytes) and all splits", "why_tests_cant": "unbounded messages; partial-word buffer logic has many residue cases", "anchors": ["src/crypto/md32_common.h: HASH_UPDATE, HASH_FINAL", "src/crypto/sha256.c"]}
{"id": "C55", "title": "Merkle tree IVs are fixed by the circuit", "statement": "Every assignment satisfying the constraints of a Merkle path authenticator built with merkle_tree_IVs uses the 29 constants of merkle_tree_IVs as level IVs.", "quantifier": "all satisfying assignments", "why_tests_cant": "tests only use the honest witness, in which the IV variables hold the constants; whether a prover may change them is a statement about all assignments", "anchors": ["src/gadgets/merkle_tree.cpp:74-113"]}
{"id": "C56", "title": "Merkle authenticator proves membership without further constraints on the address", "statement": "Whenever the constraints of merkle_path_authenticator hold, the leaf is one of the two children hashed at the bottom level, whatever values the address variables have.", "quantifier": "all assignments, including non-boolean address values", "why_tests_cant": "tests assign boolean addresses; the claim quantifies over every value a malicious prover may choose", "anchors": ["src/gadgets/merkle_tree.cpp:32-52", "src/gadgets/merkle_tree.hpp:182-190"]}
{"id": "C57", "title": "one_of_n accepts its own honest witness when constraints are generated first", "statement": "For every non-empty list of items and every our_item equal to one of them, generating the constraints and then the witness (the usual order in a circuit class) gives a satisfied protoboard.", "quantifier": "all item lists, values and positions of the matching item", "why_tests_cant": "the only test generates the witness first; the claim covers every position of the matching item in the other order", "anchors": ["src/gadgets/one_of_n.hpp:74-129"]}
{"id": "C58", "title": "The generator has exactly the advertised prime order", "statement": "The generator (Gx, Gy) of jubjub::Params has order exactly L = 2736030358979909402780800718157159386076813972158567259200215660948447373041, which is prime: a multiple k*G is the neutral element if and only if L divides k.", "quantifier": "all scalars k", "why_tests_cant": "that no smaller multiple of the generator vanishes cannot be found by trying scalars", "anchors": ["src/jubjub/params.cpp: Params::Params (Gx, Gy)", "ethsnarks/jubjub.py: JUBJUB_L"]}
{"id": "C59", "title": "eddsa_open decides the verification equation", "statement": "For an on-curve base point, public key A and nonce point R, eddsa_open<PureEdDSA> and eddsa_open<EdDSA> terminate without an assertion failure and return true exactly when 8R is not the identity's or the order-two point (x(8R) is non-zero) and s*B = R + h*A, with h the canonical Pedersen challenge of (R, A, M).", "quantifier": "all keys, points, scalars, messages of supported length and base-point functions", "why_tests_cant": "tests check a few signatures; acceptance of a wrong signature or an abort on a well-formed one needs all inputs", "anchors": ["src/jubjub/eddsa.hpp: eddsa_open", "src/jubjub/eddsa.cpp"]}
{"id": "C60", "title": "Private circuit inputs stay private", "statement": "The value of a wire declared 'nizkinput' (and not declared 'input') is never part of the primary input of the proof.", "quantifier": "all circuit files accepted by the reader", "why_tests_cant": "quantifies over all declaration orders; the leak only shows for some of them", "anchors": ["src/pinocchio/circuit_reader.cpp: parseCircuit (varNew, set_input_sizes)", "src/pinocchio/README.md"]}
{"id": "C61", "title": "Arithmetic circuits with splits of at most 253 bits: constraints determine the outputs", "statement": "For every circuit of add, mul, const-mul, const-mul-neg, xor, or, assert, pack, 2/4-entry table and split instructions with at most 253 outputs per split, every satisfying assignment, whether of the key-generation or of the proving constraint system, agrees on every wire with the evaluation of the circuit on the values of its input wires, and every assertion holds in that evaluation.", "quantifier": "all circuits, input files and satisfying assignments whose input wires make the boolean gates get booleans", "why_tests_cant": "adversarial assignments over unbounded circuits", "anchors": ["src/pinocchio/circuit_reader.cpp: makeConstraints, add*Constraint, handleAddition, handleMulConst"]}
{"id": "C62", "title": "A proof from a violated system is almost never accepted", "statement": "If the assignment violates a constraint, then, even with the prover's satisfaction check compiled out, the proofs the prover makes from it are accepted for at most 2m-2 of the p values of the key's secret evaluation point (m the size of the evaluation domain), whatever the other secrets and the prover's randomness.", "quantifier": "all constraint systems, violating assignments, keys and randomness", "why_tests_cant": "quantifies over all keys; the exceptional keys exist and are too rare for sampling to meet", "anchors": ["src/r1cs_gg_ppzksnark_zok/r1cs_gg_ppzksnark_zok.tcc: generator, prover, verifier_strong_IC"]}
{"id": "C63", "title": "The weak verifier pads missing inputs with zeros", "statement": "With at most as many inputs as the key declares, verifier_weak_IC gives the answer verifier_strong_IC gives on the input extended with zeros.", "quantifier": "all keys, inputs and proofs", "why_tests_cant": "all lengths and group elements", "anchors": ["src/r1cs_gg_ppzksnark_zok/r1cs_gg_ppzksnark_zok.tcc: online_verifier_weak_IC, online_verifier_strong_IC"]}
{"id": "C64", "title": "Poseidon round constants are the iterated BLAKE2b-256 digests of the seed", "statement": "For every seed and every count n from 1 to 2^32-1, poseidon_constants returns n field elements, the i-th being the little-endian value modulo p of the (i+1)-fold BLAKE2b-256 hash of the seed.", "quantifier": "all seeds and counts", "why_tests_cant": "unbounded seeds and counts; tests compare two constants only", "anchors": ["src/gadgets/poseidon.hpp: poseidon_constants_fill, poseidon_constants"]}
{"id": "C65", "title": "Poseidon matrix is a Cauchy matrix with maximal branch number", "statement": "For every seed and width t, poseidon_matrix either aborts (exactly when some constant of the first half equals one of the second half) or returns the t x t matrix of inverses of the differences; when the 2t constants are distinct the matrix is MDS: every non-zero vector v has weight(v) + weight(M v) >= t + 1.", "quantifier": "all seeds, widths and vectors", "why_tests_cant": "the branch number quantifies over all vectors of field elements", "anchors": ["src/gadgets/poseidon.hpp: poseidon_matrix_fill"]}
{"id": "C66", "title": "Poseidon128 with its real parameters is injective on the whole state", "statement": "With the parameters the code derives for Poseidon128 (t=6, F=8, P=57) no assertion fails, the matrix is MDS, and distinct inputs to the permutation give distinct states; in the gadget with all six outputs, two satisfying assignments with equal outputs have equal inputs.", "quantifier": "all inputs and satisfying assignments", "why_tests_cant": "quantifies over all pairs of states", "anchors": ["src/gadgets/poseidon.hpp: poseidon_params, Poseidon128, Poseidon_gadget_T"]}
{"id": "C67", "title": "The curve has exactly 8*L points", "statement": "The twisted Edwards curve 168700 x^2 + y^2 = 1 + 168696 x^2 y^2 over the scalar field has exactly 8*L points, L the prime order of the generator; consequently 8*L*P is the neutral element for every curve point.", "quantifier": "all curve points", "why_tests_cant": "a cardinality of about 2^254 cannot be tested; the cofactor 8 used throughout the code rests on it", "anchors": ["src/jubjub/params.cpp: Params", "ethsnarks/jubjub.py: JUBJUB_E, JUBJUB_C, JUBJUB_L"]}
{"id": "C68", "title": "Multiplying by the cofactor reaches the prime-order subgroup", "statement": "For every curve point P, 8P is a multiple of the generator and is either the neutral element or of order exactly L; a curve point is in the subgroup of the generator iff L*P is neutral; x(8P) = 0 (the test made by the code) holds iff 8P is neutral.", "quantifier": "all curve points", "why_tests_cant": "a claim about every point and every scalar", "anchors": ["src/jubjub/point.cpp: from_hash (cofactor comment)", "src/jubjub/notloworder.cpp: NotLowOrder"]}
{"id": "C69", "title": "EdDSA works with the base points the code derives itself", "statement": "The base points make_basepoints derives for EdDSA_Verify.RAM and EdDSA_Verify.M meet the conditions of the Pedersen hash for every supported length up to 930 bits (on the curve, order exactly L), and eddsa_open with these points terminates and accepts exactly when 8R is not neutral and s*B = R + h*A with the canonical challenge.", "quantifier": "all keys, points, scalars, messages up to the stated length, all square-root choices of the library", "why_tests_cant": "the order of the derived points and acceptance for all inputs", "anchors": ["src/jubjub/eddsa.cpp", "src/jubjub/pedersen_hash.cpp", "src/jubjub/point.cpp: make_basepoints"]}
{"id": "C70", "title": "A signature has a unique scalar", "statement": "For a given public key, nonce point R and message at most one scalar s is accepted by eddsa_open.", "quantifier": "all signatures", "why_tests_cant": "non-malleability is a claim about all scalars", "anchors": ["src/jubjub/eddsa.hpp: eddsa_open", "src/jubjub/eddsa.cpp: PureEdDSA"]}
{"id": "C71", "title": "Degenerate public keys are rejected", "statement": "eddsa_open does not accept signatures under a public key of small order (under such a key one signature can be valid for all messages).", "quantifier": "all messages, keys of order dividing 8", "why_tests_cant": "needs adversarial keys", "anchors": ["src/jubjub/eddsa.cpp: PureEdDSA (no validation of A)"]}
{"id": "C72", "title": "Public inputs in a proof file are canonical", "statement": "Two public-input strings that denote different numbers are never read as the same field element: the importer rejects numbers of at least the field order.", "quantifier": "all input strings", "why_tests_cant": "needs all numbers in [p, 2^256); tests only use reduced values", "anchors": ["src/import.hpp: parse_bigint", "src/import.cpp: create_F_list"]}
{"id": "C73", "title": "The point at infinity survives export and import", "statement": "A G1 element equal to the point at infinity is exported so that the importer reads it back as the point at infinity.", "quantifier": "all representatives with Z = 0", "why_tests_cant": "degenerate element, never produced by tests", "anchors": ["src/export.cpp: outputPointG1AffineAsHex", "src/import.cpp: create_G1"]}
{"id": "C74", "title": "Verification through JSON agrees with verification in memory", "statement": "For every key and proof with finite points (G2 points affine or with both components of Z non-zero) and any inputs, exporting both to JSON and calling stub_verify gives the same result as calling the verifier on them directly.", "quantifier": "all keys, proofs, numbers of inputs and inputs; every conforming JSON parser", "why_tests_cant": "unbounded number of inputs and all coordinates", "anchors": ["src/export.cpp", "src/import.cpp", "src/stubs.cpp: stub_verify"]}
{"id": "C75", "title": "sha256_many computes SHA-256", "statement": "For every input whose length is a positive multiple of eight bits, the witness sha256_many generates satisfies the constraints of the padding and of the gadget, and its result holds the FIPS 180-4 SHA-256 digest of the input bits. It does so with any compression gadget that meets the stated contract, and libsnark's does.", "quantifier": "all input bits of every length, all protoboards", "why_tests_cant": "unbounded message lengths; the digest of every message", "anchors": ["src/gadgets/sha256_many.cpp:17-71", "src/utils.cpp:110-196"]}
{"id": "C76", "title": "sha256_many is sound", "statement": "Every assignment that satisfies the constraints of sha256_many and holds the message in the input has the SHA-256 digest of the message in the result.", "quantifier": "all satisfying assignments", "why_tests_cant": "tests only check the honest witness; a dishonest prover chooses the assignment", "anchors": ["src/gadgets/sha256_many.cpp:52-60", "src/utils.cpp:150-172"]}
{"id": "C77", "title": "sha256_full_gadget_512 computes SHA-256", "statement": "For every 512-bit block, the witness of sha256_full_gadget_512 satisfies its constraints and the output digest is the SHA-256 digest of the block.", "quantifier": "all blocks, all protoboards", "why_tests_cant": "2^512 blocks", "anchors": ["src/gadgets/sha256_full.hpp:81-122"]}
{"id": "C78", "title": "sha256_full_gadget_512 is sound", "statement": "Every assignment that satisfies the constraints of sha256_full_gadget_512 and holds a block in the input has the SHA-256 digest of the block in the output.", "quantifier": "all satisfying assignments", "why_tests_cant": "tests only check the honest witness; a dishonest prover chooses the assignment", "anchors": ["src/gadgets/sha256_full.hpp:112-117", "src/utils.cpp:202-211"]}
{"id": "C79", "title": "The witness overloads of sha256_full_gadget_512 satisfy the constraints", "statement": "Calling generate_r1cs_witness with the block and its digest, or with the bytes of the block, leaves an assignment that satisfies the constraints.", "quantifier": "all blocks", "why_tests_cant": "the overloads are not called by any test; the claim is about all blocks", "anchors": ["src/gadgets/sha256_full.hpp:125-159"]}
{"id": "C80", "title": "sha256_many accepts any number of bits", "statement": "As its documentation says, sha256_many can be constructed on any number of input bits.", "quantifier": "all numbers of bits", "why_tests_cant": "unbounded lengths", "anchors": ["src/gadgets/sha256_many.hpp:19-24", "src/utils.cpp:118-124"]}
{"id": "C81", "title": "Circuit and inputs files are read for what they say", "statement": "A circuit file whose lines follow the format (comments, empty lines, declarations, tables, gates with counts and wire lists, hexadecimal constants) is read as exactly the declarations and gates written; an inputs file with one separator per line is read as the values written. So the guarantees about circuits hold of the text a user writes.", "quantifier": "all files of the format, any number and length of lines", "why_tests_cant": "unbounded texts; tests read a few fixed files", "anchors": ["src/pinocchio/circuit_reader.cpp:52-80", "src/pinocchio/circuit_reader.cpp:118-149", "src/pinocchio/circuit_reader.cpp:218-389"]}
{"id": "C82", "title": "Reading a circuit file is memory safe", "statement": "Whatever a circuit file contains, reading it does not write outside a buffer.", "quantifier": "all files", "why_tests_cant": "arbitrary input; an overflow need not show in a test", "anchors": ["src/pinocchio/circuit_reader.cpp:228-250", "src/pinocchio/circuit_reader.cpp:72-80"]}
{"id": "C83", "title": "Different wire numbers are different wires", "statement": "Lines that name different wire numbers declare or use different wires.", "quantifier": "all numbers", "why_tests_cant": "tests use small numbers", "anchors": ["src/pinocchio/circuit_reader.cpp:52-59", "src/pinocchio/circuit_reader.cpp:257-275"]}
{"id": "C84", "title": "Lines of the inputs file set the value written or are rejected", "statement": "Every line of the inputs file sets its wire to the hexadecimal number written; a line that is not of the form is rejected.", "quantifier": "all lines", "why_tests_cant": "arbitrary input", "anchors": ["src/pinocchio/circuit_reader.cpp:118-149", "src/pinocchio/circuit_reader.cpp:72-80"]}
{"id": "C85", "title": "pinocchio eval prints what the circuit computes", "statement": "For a well-formed circuit and inputs, eval prints for each output wire, in the order declared, the value the circuit computes, without a warning, and exits with 0.", "quantifier": "all circuits and inputs", "why_tests_cant": "unbounded circuits", "anchors": ["src/pinocchio/main.cpp:66-82", "src/pinocchio/main.cpp:137-144"]}
{"id": "C86", "title": "The exit status of pinocchio tells whether the inputs satisfy the circuit", "statement": "If the constraints are not satisfied by the inputs, the tool exits with a non-zero status; if they can be satisfied, it does not complain.", "quantifier": "all circuits and inputs", "why_tests_cant": "no test runs the tool on unsatisfied inputs", "anchors": ["src/pinocchio/main.cpp:21-50", "src/pinocchio/main.cpp:66-82"]}
{"id": "C87", "title": "The contract adds points as the curve does", "statement": "JubJub.pointAdd and JubJub.pointDouble return the reduced coordinates of the sum and the double of points on the curve, for any 256-bit representatives of the coordinates.", "quantifier": "all points on the curve, all representatives", "why_tests_cant": "field-sized domain; exceptional cases of the formulas", "anchors": ["contracts/JubJub.sol:205-225", "contracts/ETEC.sol:14-181"]}
{"id": "C88", "title": "The contract's scalarMult multiplies", "statement": "JubJub.scalarMult(x, y, v) returns the reduced coordinates of v times the point, for every 256-bit v.", "quantifier": "all points on the curve, all 256-bit scalars", "why_tests_cant": "2^256 scalars", "anchors": ["contracts/JubJub.sol:146-167"]}
{"id": "C89", "title": "The contract's scalarMultNAF multiplies or reverts", "statement": "For a point on the curve with a reduced abscissa, JubJub.scalarMultNAF returns v times the point for 0 < v < 2^255 and reverts for every other v.", "quantifier": "all points, all 256-bit scalars", "why_tests_cant": "2^256 scalars; wrap-around of the Booth recoding", "anchors": ["contracts/JubJub.sol:98-143"]}
{"id": "C90", "title": "The contract's scalarMultNAF5 multiplies", "statement": "JubJub.scalarMultNAF5(x, y, v) returns v times the point.", "quantifier": "all points, all scalars", "why_tests_cant": "depends on the digits of the scalar", "anchors": ["contracts/JubJub.sol:40-95", "contracts/wNAF.sol:17-42"]}
{"id": "C91", "title": "The contract verifies EdDSA signatures", "statement": "EdDSA.Verify accepts exactly the signatures (R, s) with s B = R + t A, where t is the hash of R, A and the message.", "quantifier": "all keys, messages, signatures and hash functions", "why_tests_cant": "cryptographic domain; needs the group law", "anchors": ["contracts/EdDSA.sol:11-40"]}
{"id": "C92", "title": "MiMC round constants agree between circuit and contracts", "statement": "The round constants the circuit derives (constants_fill: the chain of Keccak-256 digests starting from the digest of \"mimc\", each read big-endian and reduced) are, in order, the 91 literals of MiMCpe7_generated.sol and the 110 literals of MiMCpe5_generated.sol, all of them reduced; the i-th constant is the (i+1)-st digest of the chain.", "quantifier": "all rounds, any number of rounds for the chain", "why_tests_cant": "a test of one hash value shows a mismatch only if it runs both implementations; here there is nothing to run both against each other", "anchors": ["src/gadgets/mimc.hpp:278-317", "contracts/MiMCpe7_generated.sol", "contracts/MiMCpe5_generated.sol"]}
{"id": "C93", "title": "The MiMC contracts compute the circuit's cipher", "statement": "MiMC_permutation.MiMCpe7/MiMCpe5 and MiMCpe7_generated/MiMCpe5_generated return MiMC with the circuit's constants for all words x and k.", "quantifier": "all pairs of 256-bit words", "why_tests_cant": "2^512 inputs; the wrap-around region is never hit by random reduced inputs", "anchors": ["contracts/MiMC_permutation.sol:22-72", "contracts/MiMCpe7_generated.sol", "contracts/MiMCpe5_generated.sol"]}
{"id": "C94", "title": "The MiMC hash contracts compute the circuit's hash", "statement": "MiMC_hash.MiMCpe7_mp equals the circuit's Miyaguchi-Preneel hash (and the native mimc_hash) for every message length, MiMCpe7_md equals the Merkle-Damgard chain, and different word lists of the same length are not identified by reduction.", "quantifier": "all messages of any length with elements below 3p, all reduced keys", "why_tests_cant": "unbounded message length and sums that must not wrap", "anchors": ["contracts/MiMC_hash.sol:19-42", "src/gadgets/mimc.hpp:379-412"]}
{"id": "C95", "title": "The Merkle tree contract maintains the tree of the inserted leaves", "statement": "Insert reverts exactly for the zero leaf and a full tree (2^29 leaves); otherwise it appends at the next offset and returns the root of the tree over all leaves inserted so far, with filler values at empty positions; GetRoot returns that root; GetProof of every inserted leaf verifies with VerifyPath.", "quantifier": "all sequences of insertions of any length up to 2^29, all leaves, all indices, any two-to-one hash", "why_tests_cant": "the incremental update must agree with the whole tree after every one of up to 2^29 insertions", "anchors": ["contracts/MerkleTree.sol:69-207"]}
{"id": "C96", "title": "The contract's Merkle path computation is the circuit's", "statement": "VerifyPath computes the value of the Merkle path that the circuit specifies: same hash, same level IVs, same side for each address bit.", "quantifier": "all leaves and path elements below 3p, all address bits", "why_tests_cant": "values of 30 words; equality of two implementations in different languages", "anchors": ["contracts/MerkleTree.sol:23-112", "src/gadgets/merkle_tree.cpp:74-113"]}
{"id": "C97", "title": "Only inserted leaves verify against the contract's root", "statement": "If VerifyPath accepts a leaf with address bits, then the leaf was inserted at that address.", "quantifier": "all trees, leaves, paths and address bits", "why_tests_cant": "adversarial paths", "anchors": ["contracts/MerkleTree.sol:94-119", "contracts/MerkleTree.sol:153-166"]}
{"id": "C98", "title": "The circuit accepts the contract's Merkle proofs", "statement": "For every tree built by Insert from reduced leaves and every index, assigning the leaf, the path and bits of GetProof, the level IVs and the root to the circuit's Merkle authenticator gives a satisfying witness.", "quantifier": "all insertion sequences, indices and variable layouts", "why_tests_cant": "end-to-end over two languages; unit tests fix a few trees", "anchors": ["contracts/MerkleTree.sol", "src/gadgets/merkle_tree.hpp:82-190"]}
{"id": "C99", "title": "The on-chain verifier decides the Groth16 equation", "statement": "Verifier.Verify, given words that encode a key, a proof and reduced inputs of the right number, returns true iff e(A,B) = e(alpha,beta) e(IC(x),gamma) e(C,delta), and reverts iff alpha, C or IC(x) is the point at infinity; and if it returns anything, then all words were valid encodings (y of alpha, C and a lone IC_0 modulo q), the inputs are reduced and of the right number, and the answer is the equation.", "quantifier": "all keys, proofs, inputs of any number, all 256-bit words", "why_tests_cant": "soundness over all words and any number of inputs cannot be enumerated; tests check single proofs", "anchors": ["contracts/Verifier.sol:16-127"]}
{"id": "C100", "title": "The on-chain and the native verifier agree", "statement": "For every key, proof and input, Verifier.Verify returns what r1cs_gg_ppzksnark_zok_verifier_strong_IC returns on the elements the words stand for.", "quantifier": "all keys, proofs and inputs", "why_tests_cant": "the disagreement needs a point at infinity, which no honest test produces", "anchors": ["contracts/Verifier.sol:65-127", "contracts/Verifier.sol:16-21", "src/r1cs_gg_ppzksnark_zok/r1cs_gg_ppzksnark_zok.tcc:602-634"]}
{"id": "C101", "title": "An accepted proof has one encoding on chain", "statement": "If two lists of eight words are accepted for the same key and inputs and stand for the same proof, they are equal.", "quantifier": "all words", "why_tests_cant": "an alternative encoding is never produced by the prover, only by an adversary", "anchors": ["contracts/Verifier.sol:16-21", "contracts/Verifier.sol:113-117"]}
{"id": "C102", "title": "Unreduced or miscounted public inputs are always refused on chain", "statement": "If some input is >= r, or the number of inputs is not (length of gammaABC)/2 - 1, the call reverts, whatever the key and the proof words are.", "quantifier": "all words, all lengths", "why_tests_cant": "the aliasing attack x + r uses inputs no honest client sends", "anchors": ["contracts/Verifier.sol:70", "contracts/Verifier.sol:84"]}
{"id": "C103", "title": "ReverseBits mirrors every word", "statement": "For every 256-bit v, bit i of ReverseBits(v) is bit 255-i of v, and ReverseBits(ReverseBits(v)) = v.", "quantifier": "all 2^256 words", "why_tests_cant": "2^256 inputs; the test checks one", "anchors": ["contracts/SnarkUtils.sol:93-106"]}
{"id": "C104", "title": "PackWords packs the bit stream", "statement": "For any number of input words (at least one) and any number n of output words such that each gets at least one bit, PackWords writes bit 253*o+j of the input stream (most significant bit of each word first) to bit j of word o, zero beyond the end, every word below 2^253; for larger n, and for no input words, it reverts.", "quantifier": "all word lists of any length, all n", "why_tests_cant": "unbounded lengths; offsets between source and destination take 253*256 alignments", "anchors": ["contracts/SnarkUtils.sol:36-88", "contracts/SnarkUtils.sol:8-13"]}
{"id": "C105", "title": "PackWords loses no information", "statement": "With N input words and N output words, as the comment announces, different inputs give different outputs.", "quantifier": "all N and all inputs", "why_tests_cant": "the lost bits are the low bits of the last words", "anchors": ["contracts/SnarkUtils.sol:16-19", "contracts/SnarkUtils.sol:36-88"]}
{"id": "C106", "title": "The Python Merkle tree computes the w-ary root", "statement": "For every hasher, width w >= 2, size n_items divisible by w and every history of append and update calls, MerkleTree.root is the root of the w-ary tree of depth floor(log_w n_items) over the current leaves, in which positions without leaves have the hasher's unique value; tree[i] gives leaf i; append returns the number of leaves before, and raises exactly when the tree is full or the leaf is not in the field.", "quantifier": "all hashers, widths, sizes, histories of any length", "why_tests_cant": "needs induction over histories and levels for arbitrary width; a test checks one size and one history", "anchors": ["ethsnarks/merkletree.py:84-200"]}
{"id": "C107", "title": "The Python Merkle tree's own proofs verify", "statement": "For every tree and every leaf i of it, tree.proof(i).verify(tree.root) is True.", "quantifier": "all hashers, widths, histories, positions", "why_tests_cant": "depends on coincidences of sibling values, which tests with distinct leaves do not meet", "anchors": ["ethsnarks/merkletree.py:13-20", "ethsnarks/merkletree.py:159-177"]}
{"id": "C108", "title": "update replaces exactly one leaf", "statement": "tree[i] = x either raises or leaves a tree whose root is that of the leaves with leaf i replaced by x.", "quantifier": "all hashers, widths, histories, integer indices", "why_tests_cant": "tests use a few indices; negative ones are legal Python indices and none is tested", "anchors": ["ethsnarks/merkletree.py:121-130", "ethsnarks/merkletree.py:179-189"]}
{"id": "C109", "title": "The root commits to every appended leaf", "statement": "If append accepts a leaf, the root afterwards depends on it: two histories with equally many leaves and the same root have the same leaves or exhibit a hash collision.", "quantifier": "all hashers, widths, sizes, histories", "why_tests_cant": "is about all pairs of histories", "anchors": ["ethsnarks/merkletree.py:106-116", "ethsnarks/merkletree.py:132-141"]}
{"id": "C110", "title": "Only leaves of the Python tree verify", "statement": "If MerkleProof.verify(root) is True then the leaf is in the tree at the position that the addresses spell, or the proof exhibits a hash collision or meets the filler value of an empty position.", "quantifier": "all proofs, trees, hashers", "why_tests_cant": "adversarial proofs of any shape; tests check honest ones", "anchors": ["ethsnarks/merkletree.py:13-20"]}
{"id": "C111", "title": "Python MiMC is the circuit's MiMC", "statement": "For all integers, also negative or unreduced ones, mimc, mimc_hash and mimc_hash_md return the circuit's MiMC, its Miyaguchi-Preneel chain and its Merkle-Damgard chain of the residues, with the constants of the seed; the defaults are those of the circuit and of MiMC_permutation.sol, and of MiMC_hash.sol for values below 3p.", "quantifier": "all integers, messages of any length, seeds, exponents, numbers of rounds", "why_tests_cant": "equality of functions on infinitely many inputs; tests compare a few vectors", "anchors": ["ethsnarks/mimc/permutation.py:35-146"]}
{"id": "C112", "title": "The Python tree and the contract have the same root", "statement": "The initialisation vectors that merkletree.py derives with SHA-256 are the 29 literals of MerkleTree.sol, and for every list of at most 2^29 nonzero leaves, unless a hash is zero, MerkleTree(2**29).root is the root of the contract after the same insertions.", "quantifier": "all lists of leaves", "why_tests_cant": "two implementations on all inputs; tests compare single trees", "anchors": ["ethsnarks/merkletree.py:24-59", "contracts/MerkleTree.sol:23-230"]}
{"id": "C113", "title": "The Python point classes implement the curve group", "statement": "For all points of the curve and all of their representatives, add, double, negation and subtraction of Point, ProjPoint and EtecPoint return a representative of the sum, double, negative and difference, without an exception; infinity() represents the neutral element, and valid() is true exactly for curve points.", "quantifier": "all pairs of curve points, all projective and extended representatives", "why_tests_cant": "algebraic identities over a 254-bit field, with special cases for equal, opposite and neutral operands", "anchors": ["ethsnarks/jubjub.py:81-100", "ethsnarks/jubjub.py:230-330", "ethsnarks/jubjub.py:340-420", "ethsnarks/jubjub.py:533-620"]}
{"id": "C114", "title": "Python scalar multiplication", "statement": "mult returns s times the point for every integer s >= 0 in each of the three classes; for a negative integer it never terminates; with a field element of modulus E (all curve points) or L (points of the subgroup) as scalar it respects addition and multiplication of scalars; with the default modulus p it does not; any other modulus raises.", "quantifier": "all scalars, points and representatives", "why_tests_cant": "needs induction over the bits and the exponent of the group; non-termination cannot be tested", "anchors": ["ethsnarks/jubjub.py:128-142"]}
{"id": "C115", "title": "Windowed non-adjacent forms in Python", "statement": "For every width w >= 2 and k >= 0, wNAF returns digits that write k, are zero or odd and below 2^(w-1) in absolute value, with at most one of w neighbours not zero; mult_naf and mult_wnaf return s times the point for all s >= 0 in the three classes; for width 1 and s > 0 mult_wnaf raises; for negative s mult_naf returns the neutral element.", "quantifier": "all scalars, widths, points and representatives", "why_tests_cant": "unbounded scalars and widths", "anchors": ["ethsnarks/jubjub.py:120-127", "ethsnarks/jubjub.py:623-687"]}
{"id": "C116", "title": "MontPoint implements the curve group", "statement": "as_mont is an embedding of the curve into MontPoint that respects add, double, negation, subtraction, mult and mult_naf, and as_point is its inverse.", "quantifier": "all curve points and scalars >= 0", "why_tests_cant": "exceptional cases of the Montgomery formulas; tests use random points", "anchors": ["ethsnarks/jubjub.py:421-531", "ethsnarks/jubjub.py:269-270"]}
{"id": "C117", "title": "Conversions between the Python point classes keep the point, and == is equality of points", "statement": "Point.as_proj, as_etec, ProjPoint.as_point, as_etec, EtecPoint.as_point, as_proj convert a representative of P to a representative of P; two representatives are == exactly if they represent the same point.", "quantifier": "all points and representatives", "why_tests_cant": "tests convert points with Z = 1 only", "anchors": ["ethsnarks/jubjub.py:269-276", "ethsnarks/jubjub.py:310-336", "ethsnarks/jubjub.py:538-563"]}
{"id": "C118", "title": "Points from one coordinate and compressed points in Python", "statement": "from_y and from_x return a curve point with the coordinate (from_y: the larger root) or raise when there is none; decompress(compress(P)) = P for every curve point; decompress accepts exactly the 32-byte strings that encode a curve point, and raises on all others; every curve point has a second accepted encoding.", "quantifier": "all field elements, curve points, byte strings, square-root functions", "why_tests_cant": "quantifies over all byte strings; a second encoding is not found by round-trip tests", "anchors": ["ethsnarks/jubjub.py:150-184", "ethsnarks/jubjub.py:237-267"]}
{"id": "C119", "title": "Hashing to a point in Python", "statement": "from_hash returns 8 times the first point found, of order L and not the identity, never raises, and agrees with the C++ function.", "quantifier": "all inputs, all square-root functions", "why_tests_cant": "the identity is reached only from digests congruent to the ordinate of a point of low order; the loop has no bound", "anchors": ["ethsnarks/jubjub.py:190-229"]}
{"id": "C120", "title": "A signature made by the Python scheme verifies", "statement": "For every key 0 < k < L, message and hash function, verify accepts what sign returned; verify accepts exactly if S*B = R + t*A; sign raises for every other key.", "quantifier": "all keys, messages, secret and public hash functions, base points of order L", "why_tests_cant": "the failing signatures have probability about 2^-127, no random test meets them; the verification equation quantifies over all signatures", "anchors": ["ethsnarks/eddsa.py:125-196"]}
{"id": "C121", "title": "The Python Pedersen hash", "statement": "For every name of at most 28 characters and bit string, pedersen_hash_bits returns the windowed sum over the base points of the name, of the bits padded with zeros to a multiple of three; pedersen_hash_bytes that of the bits of the bytes, most significant first; the base points are those of the C++ code; different inputs of a given length, and different lists of scalars, have different windows.", "quantifier": "all names, messages up to 186 bits per base point, square-root functions", "why_tests_cant": "sizes are unbounded; padding collisions need messages of different lengths", "anchors": ["ethsnarks/pedersen.py:13-90"]}
{"id": "C122", "title": "The Python and C++ EdDSA verifiers agree", "statement": "For every key, signature and message (PureEdDSA: 2 mod 3 bits, at most 422; EdDSA: a multiple of three bytes, at most 116), the C++ verifier answers, and accepts exactly if the Python verifier accepts and 8*R is not the neutral element.", "quantifier": "all curve points A, R, all S, all messages of the lengths given", "why_tests_cant": "agreement of two implementations on all inputs; includes the real base points of both hashes", "anchors": ["ethsnarks/eddsa.py:181-208", "ethsnarks/pedersen.py:50-75", "src/jubjub/eddsa.cpp:1-200"]}
{"id": "C123", "title": "The Python Poseidon permutation is the one of the C++ gadget", "statement": "For all widths, round numbers, constants, matrices and integer inputs, poseidon() returns the first element (chained: the whole state) of the permutation, as numbers below p; no inputs, as many as the width, or (chained) more than the width raise. poseidon_params returns the constants and matrix of the C++ code, except that where the C++ code aborts because a matrix entry has no inverse, Python puts 0. With the default parameters poseidon() returns what the C++ permute returns.", "quantifier": "all inputs, all parameters", "why_tests_cant": "agreement of two implementations for all inputs; tests have a few vectors", "anchors": ["ethsnarks/poseidon/permutation.py:25-120", "ethsnarks/poseidon/permutation.py:123-194", "src/gadgets/poseidon.hpp:66-131"]}
{"id": "C124", "title": "Lagrange interpolation recovers the polynomial from the shares", "statement": "shamirs_poly(x, a) is the value at x of the polynomial a for at least two coefficients and raises otherwise; lagrange(points, x) is the value at x of the polynomial for any points on it, not fewer than there are coefficients; inverse_lagrange is lagrange with the coordinates exchanged.", "quantifier": "all polynomials, shares and places", "why_tests_cant": "sizes are unbounded; tests use distinct places", "anchors": ["ethsnarks/shamirspoly.py:7-52"]}
{"id": "C125", "title": "Fewer shares than coefficients do not determine the secret", "statement": "For any k-1 shares at distinct places other than 0 and any secret there is exactly one polynomial with k coefficients that has these shares and this secret.", "quantifier": "all numbers of shares, all shares, all secrets", "why_tests_cant": "an information-theoretic statement about all polynomials", "anchors": ["ethsnarks/shamirspoly.py:7-21"]}
{"id": "C126", "title": "Greatest common divisors and inverses in Python", "statement": "gcd and gcd2 return the greatest common divisor of any integers up to sign (exactly, for arguments >= 0), lcm2 the least common multiple of integers >= 0 (and raises for 0 and 0), inverse_mod(a, m) for every a and m >= 1 an inverse in 1..m if a and m are coprime, and raises otherwise; all of them terminate.", "quantifier": "all integers", "why_tests_cant": "Euclid's algorithm is a loop over unbounded integers; the file's own tests draw random numbers", "anchors": ["ethsnarks/numbertheory.py:190-233"]}
{"id": "C127", "title": "Python field elements form a field", "statement": "For every modulus m and integers a, b: FQ(a)+FQ(b) = FQ(a+b), likewise -, *, unary - and powers, also when one side is the plain integer; for m prime, x/y*y = x and y.inv()*y = 1 for y not 0; == is equality of the elements; elements of different moduli cannot be combined; division by zero raises; FR is a field of scalars.", "quantifier": "all moduli, elements and integers", "why_tests_cant": "all pairs of elements of a 254-bit field", "anchors": ["ethsnarks/field.py:69-183", "ethsnarks/field.py:208-211"]}
{"id": "C128", "title": "Bytes of field elements and random elements in Python", "statement": "to_bytes never raises, has the number of bytes that depends on the modulus only, and decodes to the number below the modulus, so it is injective; when the bytes drawn are uniform, FQ.random returns every element with a number of draws that differs by at most one, and is at least 256.", "quantifier": "all moduli >= 1, all elements", "why_tests_cant": "a statement about all draws", "anchors": ["ethsnarks/field.py:127-131", "ethsnarks/field.py:188-194"]}
{"id": "C129", "title": "The Jacobi symbol in Python", "statement": "jacobi(a, n) for every integer a and odd n >= 3 terminates with recursion depth at most 2*log2(n)+2 and returns -1, 0 or 1: 0 exactly if a and n have a common factor, multiplicative and periodic in a, 1 for a = 1 modulo n, and jacobi(m,n)*jacobi(n,m) follows quadratic reciprocity; for the field modulus it is -1 exactly for the non-squares; for other n it raises.", "quantifier": "all integers a, all odd n >= 3", "why_tests_cant": "a recursion over unbounded integers; squares among 2^254 elements cannot be enumerated", "anchors": ["ethsnarks/numbertheory.py:129-150"]}
{"id": "C130", "title": "Modular square roots in Python", "statement": "For the field modulus p and every 0 <= a < p, square_root_mod_prime(a, p) returns an r in 0..p-1 with r*r = a modulo p if a is a square, after trying fewer than p candidates, none of its assertions failing; and raises SquareRootError if not. FQ.sqrt therefore is what from_x, from_y, from_hash and decompress rely on.", "quantifier": "all a, also all primes that are 3 modulo 4", "why_tests_cant": "the loop over b and the final assertion on the polynomial power are only exercised on the values that the tests draw", "anchors": ["ethsnarks/numbertheory.py:52-125", "ethsnarks/numbertheory.py:154-186", "ethsnarks/field.py:143-145"]}
{"id": "C131", "title": "The EVM assembler resolves labels", "statement": "For code assembled by Codegen without exception and without pending labels: every jump to a label arrives at the instruction after it, and the transaction data of createTxData, run as init code, returns exactly the assembled code.", "quantifier": "all programs", "why_tests_cant": "which labels and jumps occur, and the widths of the pushes between them, vary without bound; the repository has no test of the assembler with a backward jump", "anchors": ["ethsnarks/evmasm.py:31-54", "ethsnarks/evmasm.py:56-75", "ethsnarks/evmasm.py:153-205"]}
{"id": "C132", "title": "The generated MiMC contract computes MiMC", "statement": "For exponents 5 and 7, all round constants and every modulus, mimc_contract produces a deployable contract which, called with its selector and any two words x and k (and any further bytes), returns the 32 bytes of MiMC(x, k), the value of the Python function mimc; for every other selector the call fails.", "quantifier": "all inputs x and k below 2^256, all selectors, all constants below 2^256-1", "why_tests_cant": "the tests call the contract with one input; the code has a stack layout that must be right in each of 91 or 110 rounds", "anchors": ["ethsnarks/mimc/contract.py:17-104", "ethsnarks/mimc/contract.py:134-138"]}
{"id": "C133", "title": "The generated Poseidon contract computes Poseidon", "statement": "poseidon_contract(params) produces a deployable contract which, called with the selector of poseidon(uint256[]) and an ABI-encoded array of fewer than t words, returns the 32 bytes of the Python function poseidon on these inputs and parameters; for every other selector the call fails.", "quantifier": "all parameters (width, round numbers, constants, matrix), all inputs below 2^256, all selectors", "why_tests_cant": "the test runs one input with the default parameters; the stack and memory layout, and the jumps to the shared mixing code, must be right in each round", "anchors": ["ethsnarks/poseidon/contract.py:14-132", "ethsnarks/poseidon/contract.py:135-251"]}
