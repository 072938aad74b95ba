# Formal model of HarryR/ethsnarks (C++ and contracts)

The code in `/repo/src` builds R1CS gadgets on top of libsnark/libff: every gadget
class has a constructor (allocates variables), `generate_r1cs_constraints` and
`generate_r1cs_witness`.  Around that sit utilities (bit/byte conversion), JSON
export/import, a Groth16 variant, a Pinocchio arithmetic-circuit reader and two
hash implementations.  The model is a set of total, computable Gallina functions,
one per C++ function, in `rocq/theories`.

## 1. Modelling conventions

| C++ | model |
|---|---|
| `FieldT` (Fr of alt_bn128) | `F`, integers modulo the concrete 254-bit prime `p` (canonical representative + boolean proof, so `=` is Leibniz equality). Primality of `p` is proved (Pocklington certificate). |
| `protoboard<FieldT>` | variable counter + `assign := nat -> F` (index 0 is ONE) + list of constraints |
| `linear_combination` | expression type `lc` (constant, variable, sum, difference, scaling) with an evaluation function |
| constraint `<A,B,C>` | record of three linear combinations, meaning `A*B=C` |
| gadget constructor | function from next free variable to `outcome (gadget * next free)` |
| `generate_r1cs_constraints` | `gadget -> list constraint` |
| `generate_r1cs_witness` | `gadget -> assign -> outcome assign` |
| `assert` failure / abort, `throw`, `exit(n)`, undefined behaviour (out-of-range `vector[]`, `.back()` on empty, shift too wide, …) | distinct constructors of `outcome` |

For each gadget there are three kinds of theorem:
*soundness* (every satisfying assignment, however produced, has the specified
relation between inputs and outputs), *completeness* (the gadget's own witness
generator yields a satisfying assignment from every admissible input and writes only
the gadget's own variables) and, when it matters, *uniqueness*.
Specifications live in separate definitions which do not use the gadget code.

Where the property is false of the faithful model, the theorem is `..._refuted`
and exhibits a witness; the positive statement under the extra hypothesis that makes
it true is proved next to it.

## 2. Per-property plan

| id | modelled | proof |
|---|---|---|
| C01 | `field2bits_strict` ctor/constraints/witness, libsnark `packing_gadget`, `lookup_1bit` | packing sum + frame lemmas; honest digits of the canonical value |
| C02 | same | refuted: bits of `v+p`; full classification of satisfying bit vectors (value `v` or `v+p`) |
| C03, C04 | lookup gadgets | case split on boolean selectors, `ring` |
| C05 | `IsNonZero` | field reasoning |
| C06-C08 | `merkle_path_selector`, `markle_path_compute`, authenticator, over an abstract hash gadget satisfying a stated contract, instantiated by MiMC | induction on the path |
| C09 | `one_of_n`, both call orders (state includes which variable `toggles_sum[0]` denotes) | refuted in both orders; partial statement for witness-first (C57: honest completeness, refuted) |
| C10, C11 | `subadd_gadget` + libsnark `comparison_gadget`, `disjunction_gadget` | integer range arguments in the field; refutation by wrap-around witness |
| C12, C13 | `bits2blocks_padded` and the `sha256_many` block loop | induction on blocks; refutation by free padding variable |
| C14-C16 | `MiMC_gadget`, e5/e7 rounds, Miyaguchi–Preneel | induction on rounds / messages; permutation by exponent inverse modulo p-1 and Fermat |
| C17 | Poseidon rounds and permutation for all parameters | induction on rounds |
| C18, C19 | `shamir_poly` | induction on the coefficient list; refutation via the free power variable |
| C20, C21 | `EdwardsPoint` functions and `Params` | completeness (a square, d non-square by Euler's criterion computed in Coq); group law by certificates checked with `ring`/`field` |
| C22-C27 | adder, doubler, isoncurve, conditional point, validator, scalarmult, fixed_base_mul, commitment | from the group law, induction on scalar bits |
| C28, C29 | Montgomery conversions and gadgets | field algebra; refutation for equal x coordinates |
| C30-C32 | `fixed_base_mul_zcash`, `basepoints_required` (binary32 arithmetic modelled with Flocq or an exact integer model of `ceilf`) | induction on windows; refutation at a large count |
| C33, C34 | EdDSA gadgets over the Pedersen hash | composition of the above; refutation through C02 |
| C35, C36 | `is_negative`, `from_y_always`, `from_hash` (with the SHA-256 model), `make_basepoint` formatting; the library's square root is a parameter | search-loop induction, Euler's criterion both ways (constructive root extraction in the 2-Sylow subgroup); refutation with trailing spaces |
| C67, C68 | the curve itself | at most 2p points (y and a sign bit), 8L multiples of G and a point of order 8, 16L > 2p; also gives the exact forms of C24 and C59 |
| C69-C71 | EdDSA with `make_basepoints` in place of the parameter | certified evaluation of the ten base points; malleability modulo L; neutral key |
| C37-C40 | `utils.cpp` conversions | list induction |
| C41, C42, C72-C74 | `export.cpp` to the character, `import.cpp`/`import.hpp` on JSON values, GMP's number reader; the JSON parser is any function that reads the grammar of `Spec_Export` (an instance is built in `P_JsonParser`) | mutual induction over the grammar; digit induction for the numbers; field arithmetic in Fq and Fq2 (`FieldQ`, with a primality certificate); refutation with Z having a zero component, with aliases x + kp, with infinity |
| C43 | `stubs.cpp`, `verify.cpp`, `verify_dll.cpp` over the importer and the Groth16 verifier | inversion of every path; exact description of the undefined path |
| C44-C46, C62, C63 | Groth16 generator/prover/verifiers over an abstract bilinear pairing (laws are hypotheses, instantiated in the examples), QAP reduction written out | polynomial identity + bilinearity; refutation with a low-degree quotient; Lagrange interpolation and root counting for C62 |
| C47-C52, C60, C61 | `CircuitReader` on parsed lines (C81 connects them to the text), variable numbering, evaluation and constraint translation | invariant on the wire-to-variable map, meaning of each instruction's constraints, induction on the instruction list; refutations by small circuits and by general theorems |
| C55, C56 | `merkle_tree` gadgets instantiated with MiMC, Poseidon completeness | composition |
| C57 | `one_of_n` honest completeness in both call orders | refuted |
| C58, C59 | order of the Pedersen generators; `eddsa_open` for both schemes | certificates for the factorisation of the curve order, composition |
| C53 | `blake2b.c`: compression, buffering, keying | streaming invariant; refinement to RFC 7693 (`Spec_Blake2b`) |
| C64-C66 | `poseidon_constants`, `poseidon_matrix`, `poseidon_params` | chain of digests; polynomial-roots argument for the Cauchy matrix; concrete distinctness by computation |
| C54 | `sha256.c`, `md32_common.h`: compression, buffering, padding | streaming invariant; refinement to FIPS 180-4 (`Spec_Sha256`) |
| C75, C76, C80 | `sha256_many` over any compression gadget with a stated contract; libsnark's `sha256_compression_function_gadget` (schedule, rounds, sigma/choice/majority/lastbits gadgets) as the instance | induction on the blocks; induction on schedule steps and rounds, refinement to FIPS 180-4; refutation by a free filler |
| C77-C79 | `sha256_full_gadget_512` and its three witness functions | composition of two compressions; refutation by a free padding block, and by the final hasher's first constraint |
| C81, C83 | the text level of `CircuitReader`: sscanf formats, stream readers, getline, the strcmp/strstr chain | separate grammar of lines and files (`Spec_Lexer`); scanner lemma per conversion; refutation by glibc's truncation to 32 bits |
| C82, C84 | the buffers of the sscanf calls, GMP's and libff's conversion of numbers | length invariant of the scanner (strings stored are parts of the line); refutation by long words, double separators, non-hexadecimal values |
| C85, C86 | `pinocchio/main.cpp` with the proof stubs as parameters | composition of C81 and C47; refutation by a zerop circuit |
| C87-C89 | `JubJub.sol`, `ETEC.sol` on 256-bit words (`M_Evm`) | extended coordinates represent a curve point (`rep`); completeness of the addition law; Booth recoding as a difference of quotients |
| C90 | `scalarMultNAF5`, `wNAF.sol` with its byte memory | frame property of the digit loop; a stored zero digit selects the empty array, which absorbs |
| C91 | `EdDSA.sol` over any hash function | acceptance characterised by C88; order of the contract's generator from the curve's exponent |
| C92-C94 | `MiMCpe7_generated`, `MiMCpe5_generated`, `MiMC_permutation`, `MiMC_hash` contracts; `constants_fill` of `mimc.hpp` over Keccak-256 | literals against the digest chain by computation; ciphers and hashes by induction over rounds and message, with the bounds under which the sums do not wrap; the wrap-around case by injectivity of MiMC |
| C95-C98 | `MerkleTree.sol`: storage, `Insert`, `UpdateTree`, `GetProof`, `VerifyPath`, over any hash, then MiMC | storage invariant over insertions and levels; soundness by induction down the path; circuit side from C08 |
| C99-C102 | `Verifier.sol` over any pairing and any point encoding with the laws of EIP-196/197 (`eip_codec`; hypotheses, instantiated in the example) | the precompiles decode and encode; bilinearity turns the product of four pairings into the equation; induction over the inputs; refutations in the exponent |
| C103-C105 | `SnarkUtils.sol` on all words and lengths | bit positions: each round of `ReverseBits` is `i xor 2^j`; invariant of the two cursors of `PackWords` |
| C106-C110 | `merkletree.py` for any hasher and width, histories of appends and updates | the state of every level as a function of the list of leaves is an invariant of `_updateTree`; `list.remove` then `insert` gives back the list iff there is no gap; soundness by going down from the root |
| C111, C112 | `mimc/permutation.py`, MiMC hasher | congruences; the IVs by computing SHA-256 with shared prefixes; node by node equality with the contract's tree |
| C113-C115 | `jubjub.py`: Point, ProjPoint, EtecPoint, mult, wNAF | a relation between representatives and points; the loops are generic in the class and proved once from the group laws |
| C116, C117 | MontPoint, conversions, equality | the affine Montgomery law through `to_mont`/`of_mont` of Spec_Mont; counterexamples by computation |
| C118, C119 | from_x, from_y, compress, decompress, from_hash | curve equation solved for one coordinate; square roots exist or not by Euler's criterion (P_Basepoint); order of the curve from C67 |
| C120 | `eddsa.py` sign and verify, generic in the hashes | group laws of C113 and C114, order L of the base point; the reduction modulo p of S decides |
| C121 | `pedersen.py` | the loop over windows computes `pedersen_sum` of Spec_Mont by induction over segments of 62 windows; base points by uniqueness of `found_at` |
| C122 | both verifiers | C121 with the certified base points (P_RealCerts) and the exact C++ verifier theorem |
| C123 | `poseidon/permutation.py` | simulation of the integer state by field elements, round by round; the chain of digests by induction; then C17, C64 and C65 |
| C124, C125 | `shamirspoly.py` | the coefficients are the Lagrange basis of P_Groth; a polynomial with more roots than its degree is zero |
| C126 | `numbertheory.py` | invariants of Euclid's loop: Bezout coefficients of opposite signs, bounded by the modulus |
| C127 | `field.py` | congruences; Fermat for the inverses; the order of FR is divisible by 8 |
| C128 | `field.py` | base 256 digits; counting residues by induction on the number of draws |
| C129 | `numbertheory.py` jacobi | Gauss's lemma in Schering's form for odd moduli: the sign of the map x -> a*x on the half system is multiplicative and satisfies reciprocity (lattice points); the recursion follows these laws; 5 is a non-square modulo p |
| C130 | `numbertheory.py` square root | the quotient ring F[x]/(x^2-bx+a): Frobenius maps x to b-x when the discriminant is not a square, so x^((p+1)/2) squares to a and is constant; b exists, since otherwise the squares would be closed under subtracting 4a and every element a square |
| C131 | `evmasm.py` | the assembled bytes in closed form, an invariant of `append` over code, labels and pending jumps; the JUMPDEST analysis of the EVM skips instruction by instruction; symbolic execution of the init code |
| C132 | `mimc/contract.py` | symbolic execution of the bytes on a small EVM, induction over the round constants |
| C133 | `poseidon/contract.py` | straight-line parts run symbolically with abstract arithmetic and memory; the jumps through C131's layout of forward programs; a memory invariant (the matrix) and induction over the rounds; refuted for widths other than 6 |

## 3. Trusted base

* Coq 8.16.1 kernel, including its conversion test with `vm_compute`.
* `Print Assumptions` stands under every property theorem and prints "Closed under the
  global context" for each of them: no axioms, neither ours nor the standard library's.
* The reading of the C++ sources as text (nothing is compiled or run).
* The semantics of libsnark/libff/libfqfft components which are not in `/repo` (the
  submodules are absent): `packing_gadget`, `comparison_gadget`, `disjunction_gadget`,
  `generate_boolean_r1cs_constraint`, `pb_variable_array`, `Fp_model`, `bigint`,
  `r1cs_to_qap_*`, `evaluation_domain`, `swap_AB_if_beneficial`, multi-exponentiation.
  They are modelled from their published source; each model definition says so.

## 4. What is modelled and what is not

Modelled, function by function (the comment above each definition cites the lines):

| files in `/repo/src` | model |
|---|---|
| `gadgets/{lookup_1bit,lookup_2bit,lookup_3bit,lookup_signed_3bit,field2bits_strict,isnonzero,subadd,shamir_poly,one_of_n,merkle_tree,mimc,poseidon,sha256_many}` | `M_Lookup`, `M_Bits`, `M_OneOfN`, `M_Merkle`, `M_Mimc`, `M_Poseidon`, `M_Padding` |
| `jubjub/{params,point,adder,doubler,isoncurve,conditional_point,validator,notloworder,scalarmult,fixed_base_mul,fixed_base_mul_zcash,commitment,montgomery,pedersen_hash,eddsa}` | `M_Point`, `M_Jubjub`, `M_Montgomery`, `M_Eddsa` |
| `jubjub/point.cpp` (from_y_always to make_basepoints), `utils.cpp` (is_negative) | `M_Basepoint` |
| `utils.cpp`, `utils.hpp` | `M_Utils` |
| `pinocchio/circuit_reader.cpp` | `M_Circuit` (lines), `M_Lexer` (characters) |
| `pinocchio/main.cpp` | `M_Pinocchio` |
| `r1cs_gg_ppzksnark_zok` | `M_Groth` |
| `export.cpp`, `import.cpp`, `import.hpp`, `stubs.cpp` (verification), `verify.cpp`, `verify_dll.cpp` | `M_Export` |
| `crypto/blake2b.c`, `crypto/blake2b.h` | `M_Blake2b` |
| `gadgets/poseidon.hpp` (parameter derivation) | `M_PoseidonParams` |
| `gadgets/sha256_many.cpp`, `gadgets/sha256_full.hpp`, `utils.cpp` (VariableArray_from_bits), libsnark's SHA-256 compression gadget | `M_ShaGadgets`, `M_ShaGadget` |
| `crypto/sha256.c`, `crypto/sha256.h`, `crypto/md32_common.h` | `M_Sha256` |
| `/repo/contracts/{ModArith,ETEC,JubJub,JubJubPublic,wNAF,EdDSA}.sol` | `M_Evm`, `M_SolJubjub` |
| `/repo/contracts/{MiMCpe7_generated,MiMCpe5_generated,MiMC_permutation,MiMC_hash}.sol`, `mimc.hpp:263-317` (round constants) | `M_SolMimc` (Keccak-256: `Spec_Keccak`) |
| `/repo/contracts/MerkleTree.sol`, `merkle_tree.cpp:79-109` (level IVs) | `M_SolMerkle` |
| `/repo/contracts/Verifier.sol` (precompiles 6-8 as reading, group operation, writing; gas not modelled) | `M_SolVerifier` |
| `/repo/contracts/SnarkUtils.sol` | `M_SolUtils` |
| `/repo/ethsnarks/merkletree.py` (not: the type checks, `__contains__`, `index`, the Poseidon hasher; `math.log` as the exact floor; OverflowError of `to_bytes`) and `/repo/ethsnarks/mimc/permutation.py` (not: the command line) | `M_PyMerkle` |
| `/repo/ethsnarks/jubjub.py` (not: `is_negative` beyond FQ, the operation counters, `AbstractCurveOps.compress`, which always raises, `random`; the square root of `numbertheory.py` is a parameter, for which C130 shows what is assumed of it) | `M_PyJubjub` |
| `/repo/ethsnarks/pedersen.py`, `/repo/ethsnarks/eddsa.py` (not: `MiMCEdDSA`, `to_bytes`, `random_keypair`, the string forms; the digest behind `hash_secret` is a parameter) | `M_PyEddsa` |
| `/repo/ethsnarks/poseidon/permutation.py` (not: the floating point assertions of `poseidon_params`, `trace`) | `M_PyPoseidon` |
| `/repo/ethsnarks/shamirspoly.py` (modulus p) | `M_PyShamir` |
| `/repo/ethsnarks/field.py` (not: `sqrt`, counters, `__hash__`), `/repo/ethsnarks/numbertheory.py` gcd, lcm2, inverse_mod only | `M_PyField` |
| `/repo/ethsnarks/numbertheory.py:36-186` (polynomial arithmetic, jacobi, square root), `FQ.sqrt` for the modulus p | `M_PySqrt` |
| `/repo/ethsnarks/evmasm.py` (not: `PUSH` of a byte string, the range checks of `DUP`/`SWAP`), `/repo/ethsnarks/mimc/contract.py` and `/repo/ethsnarks/poseidon/contract.py` (not: the command line, the ABI), the EVM opcodes used there | `M_PyEvmasm` |

Validation of the models against the repository's own test vectors (computed in Coq while developing;
the ones marked * are Examples in the property files): Poseidon constants, matrix and permutation
(`test_poseidon.cpp`), `from_y_always`* and `make_basepoint`* (`test_jubjub_point.cpp`).

Simplifications, also stated at the definitions:

* `pb.lc_val` caches are evaluated on demand.
* `M_Poseidon` takes the round constants and the matrix as parameters and its theorems quantify over
  them; `M_PoseidonParams` models their derivation with BLAKE2b.
* The `int n_windows` arithmetic of `fixed_base_mul_zcash` is unbounded; binary32 arithmetic is
  modelled without the exponent range (the values cannot overflow it).
* Base points of the Pedersen hash are a function parameter in the EdDSA theorems C33, C34, C59; C69-C71
  instantiate it with `make_basepoints`.
* libff's `sqrt` and GMP's `mpz_jacobi` are not in the repository: the first is any function returning a
  root of every square (including 0), the second is the Legendre symbol.
* Circuit reader: `sscanf` is glibc's (numbers saturate at 2^64 - 1 and are truncated), streams are
  libstdc++'s, the locale is "C"; the trace mode's printing is not modelled.  `addTableConstraint`
  depends on an unspecified C++ evaluation order; the model takes left to right.
* `pinocchio/main.cpp`: the functions of `stubs.cpp` it calls are parameters; the proof file can be
  written.
* libsnark's SHA-256 gadget: variables are numbered in the order of the witness computation (a renaming
  of the library's numbering).
* `size_t` wrap-around of bit counts (inputs of 2^61 bytes and more) is not modelled.
* Groth16: group elements are taken up to projective equivalence; DEBUG-only assertions are off; random
  numbers are explicit arguments; multi-exponentiation is a fold; the FFT domain is a list of distinct
  points with a disjoint coset.
* JSON: nlohmann's values are trees (numbers not told apart, object members in text order, looked up by
  key); argument evaluation is left to right; assertions are on.  GMP's `mpz_get_str`/`mpz_set_str`,
  libff's `to_affine_coordinates` and `bigint(mpz_t)` are modelled from their published source.
* Contracts: gas is not modelled (a call that runs out of gas reverts); memory is modelled where the code
  addresses it (the bytes of `wnafSequence`), otherwise arrays are values; the precompiled contracts behave as
  their specification says (EIP-198 for `modexp`).
* Not modelled: the Python library in `/repo/ethsnarks` but for the files listed, contracts without logic (interfaces, migrations), tests, the build system.

`mathcomp`, `std++`, Iris, Equations and the other installed libraries are not used.
