{"id": "C01", "title": "decompose/compose round trip", "statement": "For every field element m and every supported chunk size b in {4,8,16}, decompose(m,b) succeeds and compose of its result with the same b succeeds and returns exactly m.", "quantifier": "every prime field (modulus, limb count), every field element, each of the three supported chunk sizes, both build profiles", "why_tests_cant": "a field has ~2^255 elements; a test samples a handful, and boundary bytes/nibbles are easy to miss", "anchors": ["src/utils.rs:decompose", "src/utils.rs:compose"]}
{"id": "C02", "title": "decompose is the big-endian base-2^b representation", "statement": "decompose(m,b) returns digits that are all < 2^b, whose big-endian base-2^b value is exactly the canonical integer of m, and whose number is (64*limbs)/b; every other chunk size is rejected with UnexpectedBase(b) by both decompose and compose.", "quantifier": "every prime field, every element, every u8 chunk size", "why_tests_cant": "tests only compare round trips on random elements, never the digit expansion itself for all values", "anchors": ["src/utils.rs:decompose", "src/utils.rs:compose"]}
{"id": "C03", "title": "chunks_count is the exact ceiling and agrees with decompose", "statement": "For 1 <= b with ceil(bits/b) <= 255, chunks_count(b) is exactly ceil(MODULUS_BIT_SIZE/b); b = 0 panics; the number of chunks produced by decompose equals chunks_count(b) exactly when MODULUS_BIT_SIZE > 64*limbs - b, and this is the case for the BLS12-381 scalar field and b in {4,8,16}.", "quantifier": "every prime field, every u8 chunk size, every element", "why_tests_cant": "tests fix one field; on fields for which the two counts differ encryption can never succeed", "anchors": ["src/utils.rs:chunks_count", "src/utils.rs:decompose"]}
{"id": "C04", "title": "compose on arbitrary chunk vectors", "statement": "For in-range chunk vectors compose(b) returns the big-endian base-2^b value reduced modulo the field order, an odd number of 4-bit chunks is rejected with InvalidDecomposition, and compose never panics on in-range chunks. On out-of-range chunks (as produced by decrypting a homomorphic sum) compose does not return the carried value: it truncates, or panics on u16 overflow in a debug build.", "quantifier": "every chunk vector of any length, each chunk size, both build profiles", "why_tests_cant": "the input space is unbounded lists; the failing inputs come from a different API (add_cts) than the one tested with compose", "anchors": ["src/utils.rs:compose"]}
{"id": "C05", "title": "chunked commitment commits to the whole message", "statement": "ChunkedCommitment::new(m, r, b, gens) returns a commitment equal to m*G + r*H and the commitment key of length chunks_count(b)+1, whenever the field's chunk count and the decomposition length agree (BLS12-381: always); get_commitment_given_commitment_key with that key returns the same commitment.", "quantifier": "every field element m, blinding r, generators G,H, b in {4,8,16}, every field with matching counts", "why_tests_cant": "an algebraic identity over all messages and blindings; tests only compare two key constructions", "anchors": ["src/commitment.rs:ChunkedCommitment::new", "src/commitment.rs:get_commitment_given_commitment_key", "src/commitment.rs:commitment_key"]}
{"id": "C06", "title": "commitment key is the radix-power vector", "statement": "commitment_key(gens,b) = [2^{b(n-1)} G, ..., 2^b G, G, H] with n = chunks_count(b), for all 1 <= b <= 30; the doubling construction and the scalar-power construction agree for every base, count and power-of-two radix. For b = 31 the returned key is NOT the documented radix-2^31 key (i32 sign extension), and for b >= 32 a debug build panics.", "quantifier": "every generator pair, every u8 chunk size, every chunk count, both build profiles", "why_tests_cant": "tests check three chunk sizes on one point", "anchors": ["src/commitment.rs:commitment_key", "src/commitment.rs:commitment_key_for_radix_power_of_2", "src/commitment.rs:commitment_key_for_radix_non_power_of_2"]}
{"id": "C07", "title": "blinding is never dropped from a chunked commitment (refuted for generic fields, proved when the chunk counts agree)", "statement": "A chunked commitment always depends on the blinding. Refuted for generic fields: when decompose returns more chunks than chunks_count (e.g. a 60-bit field with b = 4) the MSM silently truncates, the blinding is dropped and H is multiplied by the last chunk, so commitments to equal messages under different blindings coincide.", "quantifier": "every prime field, message, blinding, supported chunk size", "why_tests_cant": "needs a field different from the one hard-wired in the tests", "anchors": ["src/commitment.rs:ChunkedCommitment::new", "src/commitment.rs:get_values_to_commit"]}
{"id": "C08", "title": "keygen output is well formed, and failure is exact", "statement": "keygen (and FkeygenPartial) fail with VectorShorterThanExpected(len g_i, chunks_count) exactly when fewer than chunks_count generators are supplied; otherwise they succeed, validate() accepts both keys (prepared or not), supported_chunks_count is chunks_count(b), and all vectors have the documented lengths (n, n, n+1; n, n). commitment_key of the encryption key and of its prepared form is Y_1..Y_n, P_1, and every ciphertext's commitment is its combination with the chunks and the randomness. For keys of any origin, prepared or not, validate() accepts exactly if the vector lengths are n, n, n+1 (n, n for decryption keys), otherwise it names the offending length and n, and supported_chunks_count is n as a u8.", "quantifier": "every rng, generator vector, chunk size", "why_tests_cant": "ranges over all rng outputs and vector lengths", "anchors": ["src/keygen.rs:keygen", "src/keygen.rs:FkeygenPartial", "src/keygen.rs:supported_chunks_count", "src/keygen.rs:validate"]}
{"id": "C09", "title": "distributed key generation equals centralized key generation", "statement": "For any number k >= 1 of parties, running FkeygenPartial per party, combineEKs, genP1share per party, combineP1share and keygenFinal yields exactly the encryption key of keygen with secret vectors s = sum of the parties' s and t = sum of the parties' t.", "quantifier": "every number of parties, every party secret, every SRS", "why_tests_cant": "tests use two parties and one seed, and never compare with the centralized key", "anchors": ["src/keygen.rs:FkeygenPartial", "src/keygen.rs:combineEKs", "src/keygen.rs:genP1share", "src/keygen.rs:combineP1share", "src/keygen.rs:keygenFinal", "src/keygen.rs:keygen"]}
{"id": "C10", "title": "common key does not depend on the order of contributions", "statement": "combineEKs and combineP1share give the same result for every permutation of the parties' contributions (equal shapes and equal X_0), so all parties derive the same common key whatever order messages arrive in.", "quantifier": "every permutation of every list of well-shaped contributions", "why_tests_cant": "k! orders for unbounded k", "anchors": ["src/keygen.rs:combineEKs", "src/keygen.rs:combineP1share"]}
{"id": "C11", "title": "combination functions panic exactly on malformed input", "statement": "combineEKs succeeds iff the list is non-empty and every later key has at least as many X, Y, Z entries as the first; combineP1share succeeds iff the list is non-empty; genP1share succeeds iff the secret has more t entries than the key has X entries (at least one). In all other cases the call panics (no error value exists in the API). Longer vectors are silently cut to the first party's length.", "quantifier": "every list of keys / shares of any shape", "why_tests_cant": "unbounded shapes", "anchors": ["src/keygen.rs:combineEKs", "src/keygen.rs:genP1share", "src/keygen.rs:combineP1share"]}
{"id": "C12", "title": "message encryption/decryption round trip", "statement": "For keys from keygen with non-degenerate decryption key and generators, encrypt(m) on a matching field succeeds for every message and decrypt of the resulting ciphertext with the same chunk size returns exactly m.", "quantifier": "every pairing engine, rng, message, generators, b in {4,8,16}", "why_tests_cant": "2^255 messages times all randomness", "anchors": ["src/encryption.rs:Encryption::encrypt", "src/encryption.rs:Encryption::decrypt", "src/keygen.rs:keygen"]}
{"id": "C13", "title": "chunk-vector encryption/decryption round trip", "statement": "For keys from keygen with non-degenerate decryption key and generators, encrypt_decomposed_message followed by decrypt_to_chunks returns exactly the chunk vector, for every vector of chunks_count chunks with values at most 2^b - 1 and every b <= 16.", "quantifier": "every chunk vector, rng, key, generators", "why_tests_cant": "unbounded input space; zero chunks and maximal chunks take different code paths", "anchors": ["src/encryption.rs:encrypt_decomposed_message", "src/encryption.rs:decrypt_to_chunks"]}
{"id": "C14", "title": "decryption is sound and complete on arbitrary ciphertexts", "statement": "For an honest non-degenerate key, decrypt_to_chunks returns Ok(m) iff the lengths match and for every i c_i = s_i*c_0 + m_i*g_i with m_i <= 2^b-1; hence a ciphertext has at most one decryption, and any other well-shaped ciphertext yields CouldNotFindDiscreteLog, never a wrong plaintext and never a panic (b <= 31).", "quantifier": "every ciphertext (honest or adversarial), key, chunk size", "why_tests_cant": "adversarial ciphertexts are not enumerable", "anchors": ["src/encryption.rs:decrypt_to_chunks", "src/encryption.rs:decrypt_to_chunks_given_pairing_powers", "src/encryption.rs:solve_discrete_log"]}
{"id": "C15", "title": "precomputed pairing powers do not change decryption", "statement": "decrypt_given_pairing_powers with the table from pairing_powers(b, g_i) returns exactly the same outcome (value, commitment to randomness, or error) as decrypt without the table, on every ciphertext.", "quantifier": "every ciphertext, secret key, decryption key, generators, chunk size 1..30", "why_tests_cant": "equivalence of two search procedures on all inputs including failing ones", "anchors": ["src/encryption.rs:solve_discrete_log_using_pairing_powers", "src/keygen.rs:pairing_powers"]}
{"id": "C16", "title": "malformed pairing powers give an error, not a crash (refuted; exact behaviour proved)", "statement": "With a too short table decrypt_given_pairing_powers should report InvalidPairingPowers. Refuted: a table with exactly chunk_index rows, or a row with exactly j entries, panics (off-by-one in both checks); the exact result of the table search is characterised for every table.", "quantifier": "every table shape, chunk index, target", "why_tests_cant": "off-by-one only visible at exact lengths", "anchors": ["src/encryption.rs:solve_discrete_log_using_pairing_powers"]}
{"id": "C17", "title": "commitment to randomness returned by decryption is verifiable", "statement": "Whenever decrypt returns nu, e(nu, H) = e(c_0, V_0) for keys from keygen, and nu is the only such element when H is not the identity.", "quantifier": "every ciphertext, key", "why_tests_cant": "algebraic identity over all inputs", "anchors": ["src/encryption.rs:decrypt_to_chunks_given_pairing_powers", "src/keygen.rs:keygen"]}
{"id": "C18", "title": "degenerate secret scalars are not detected", "statement": "keygen never rejects its randomness: if a sampled v_i (or rho) is zero, keygen succeeds and chunk i of every ciphertext decrypts to 0. So the unconditional round trip is refuted; the non-degeneracy hypothesis of the round trip theorems is necessary.", "quantifier": "every rng, ciphertext", "why_tests_cant": "happens with probability 2^-255; no test will hit it", "anchors": ["src/keygen.rs:keygen", "src/encryption.rs:decrypt_to_chunks"]}
{"id": "C19", "title": "honest ciphertexts pass commitment verification", "statement": "Every ciphertext produced by encrypt / encrypt_decomposed_message under a key from keygen or from the distributed key generation passes verify_commitment, with plain or prepared keys and generators.", "quantifier": "every message vector, rng, key, number of parties", "why_tests_cant": "all randomness and all messages", "anchors": ["src/encryption.rs:verify_ciphertext_commitment", "src/encryption.rs:encrypt_decomposed_message"]}
{"id": "C20", "title": "commitment verification accepts exactly one commitment", "statement": "With an honest key and H not the identity, verify_ciphertext_commitment accepts (c_0, c, psi) iff lengths match and psi = t_0*c_0 + sum t_{i+1}*c_i; so a ciphertext has at most one accepted commitment, changing only the commitment or a single ciphertext element (with t_i != 0) is rejected, and the failure is InvalidCommitment.", "quantifier": "every ciphertext, commitment, key", "why_tests_cant": "adversarial inputs", "anchors": ["src/encryption.rs:verify_ciphertext_commitment"]}
{"id": "C21", "title": "batch verification is complete", "statement": "If every ciphertext of a non-empty batch verifies individually, verify_commitments_in_batch accepts for every coefficient vector of matching length; with the single coefficient [1] on one ciphertext the batch check and the individual check agree exactly.", "quantifier": "every batch size, ciphertexts, coefficients", "why_tests_cant": "unbounded batch sizes and coefficients", "anchors": ["src/encryption.rs:verify_commitments_in_batch"]}
{"id": "C22", "title": "batch verification is sound up to n-1 bad challenges", "statement": "If some ciphertext of a batch of n fails individually then at most n-1 field elements r make verify_commitments_in_batch accept with coefficients 1, r, ..., r^{n-1}.", "quantifier": "every batch, every set of challenges", "why_tests_cant": "a counting statement over the whole field", "anchors": ["src/encryption.rs:verify_commitments_in_batch", "src/encryption.rs:get_g1_for_ciphertext_commitments_in_batch_pairing_checks"]}
{"id": "C23", "title": "batch verification rejects or panics exactly as specified", "statement": "Batch verification panics iff the coefficient count differs from the ciphertext count, or the batch is empty (with a well-formed key); a ciphertext of the wrong length gives IncompatibleEncryptionKey for the first such ciphertext.", "quantifier": "every batch and key", "why_tests_cant": "unbounded", "anchors": ["src/encryption.rs:verify_commitments_in_batch"]}
{"id": "C24", "title": "encryption fails exactly as specified and never panics on keys with fewer than 256 chunks", "statement": "encrypt_decomposed_message returns MalformedEncryptionKey, IncompatibleEncryptionKey or VectorShorterThanExpected exactly on the documented mismatches and otherwise succeeds; for keys with fewer than 256 chunks it never panics. Refuted beyond: a key with 257 X entries passes validate() but encryption panics, because supported_chunks_count truncates to u8.", "quantifier": "every key shape, message vector, generator vector", "why_tests_cant": "unbounded shapes", "anchors": ["src/encryption.rs:encrypt_decomposed_message", "src/keygen.rs:supported_chunks_count"]}
{"id": "C25", "title": "homomorphic addition", "statement": "add_cts of encryptions of m1 (randomness r1) and m2 (randomness r2) under the same key equals the encryption of the chunk-wise sum with randomness r1+r2, and still passes commitment verification; the same holds for the sum of any number of ciphertexts; any two accepted ciphertexts (honest or not) add up to an accepted ciphertext.", "quantifier": "every pair / list of ciphertexts, key", "why_tests_cant": "all messages, randomness and numbers of summands", "anchors": ["src/encryption.rs:add_cts"]}
{"id": "C26", "title": "decryption of homomorphic sums", "statement": "The sum of any number of ciphertexts decrypts (after re-encryption, or directly with the decryption key) to the chunk-wise sums provided every sum is at most 2^{b'}-1 for the b' used at decryption and fits u16; a chunk whose sum exceeds the bound yields CouldNotFindDiscreteLog rather than a wrong value (sum below the field order).", "quantifier": "every number of summands, message vector, b' <= 16", "why_tests_cant": "carry boundaries across unbounded numbers of summands", "anchors": ["src/encryption.rs:add_cts", "src/encryption.rs:decrypt_to_chunks_after_re_encryption"]}
{"id": "C27", "title": "doubling the chunk size for sums works for every supported chunk size (proved for 4 and 8, refuted for 16)", "statement": "The usage in the test-suite (decrypt a sum of two with chunk_bit_size*2) works for every supported chunk size. Refuted for 16: 1u32 << 32 panics in debug builds and in release wraps to a maximum of 0, so decryption of a sum fails; proved for 4 and 8.", "quantifier": "each supported chunk size, all messages", "why_tests_cant": "the tests have 8 and 16 commented out", "anchors": ["src/encryption.rs:decrypt_to_chunks_after_re_encryption"]}
{"id": "C28", "title": "distributed re-encryption delivers the plaintext to the destination", "statement": "For any number k >= 1 of parties, if every party contributes its re_encrypt_share, the combination applied with combine_ct_with_w yields a ciphertext that the destination's secret key decrypts to exactly the original chunks.", "quantifier": "every number of parties, messages, randomness, destination key", "why_tests_cant": "tests use two parties, one seed, one chunk size", "anchors": ["src/encryption.rs:re_encrypt_share", "src/encryption.rs:combine_re_encrypt_share", "src/encryption.rs:combine_ct_with_w", "src/encryption.rs:decrypt_to_chunks_after_re_encryption", "src/keygen.rs:Fkeygen_dest"]}
{"id": "C29", "title": "every party is needed", "statement": "If one party's re-encryption share is left out, chunk i of the result opens to the right value only if that party's contribution s_{j,i}*c_0 is the identity; otherwise the right chunk is never returned.", "quantifier": "every party set, index, ciphertext", "why_tests_cant": "all randomness", "anchors": ["src/encryption.rs:re_encrypt_share", "src/encryption.rs:combine_re_encrypt_share"]}
{"id": "C30", "title": "re-encryption shares can be combined in any order", "statement": "combine_re_encrypt_share is associative and commutative on shares of equal length, so every combination order of any number of shares yields the same re-encrypted ciphertext; it panics iff the second share is shorter than the first.", "quantifier": "every permutation of every share list", "why_tests_cant": "k! orders", "anchors": ["src/encryption.rs:combine_re_encrypt_share"]}
{"id": "C31", "title": "a re-encrypted ciphertext reveals nothing without the destination key (refuted)", "statement": "Refuted: re_encrypt_share masks all chunks of a share with the same value pk*rho, so differences of re-encrypted chunks equal m_i*g_i - m_j*g_j; a public procedure recovers the complete chunk vector from the re-encrypted ciphertext and one known chunk, for every key and message, without any secret key. Without any known chunk, anybody tests candidate messages against the re-encrypted chunks (the test accepts exactly the messages with the same chunk differences, so two messages that differ in a way the generators do not relate are always told apart), and trying at most min(2^b,2^16) values of the first chunk recovers the whole message on all but a proved, negligible fraction of the SRSs generate_srs can return.", "quantifier": "every ciphertext, key, randomness (attack succeeds for all)", "why_tests_cant": "confidentiality loss is invisible to functional tests", "anchors": ["src/encryption.rs:re_encrypt_share", "src/encryption.rs:combine_ct_with_w"]}
{"id": "C32", "title": "no single party can decrypt alone (refuted: rogue key)", "statement": "Refuted: a party that sees the others' partial keys and P_1 shares before sending its own can, without knowing their secrets, choose its contribution so that the final common key equals a key of its own choosing, and then decrypts every ciphertext under the common key alone.", "quantifier": "every set of honest parties, every target key", "why_tests_cant": "needs an adversarial party", "anchors": ["src/keygen.rs:combineEKs", "src/keygen.rs:combineP1share", "src/keygen.rs:keygenFinal"]}
{"id": "C33", "title": "SNARK proof verification against the ciphertext reduces exactly to Groth16", "statement": "For keys generated from the SRS (centralized), verify_proof accepts the proof returned for randomness r together with the ciphertext encrypted with r iff the underlying Groth16 proof verifies for the public inputs = message chunks.", "quantifier": "every SRS, key, message, randomness, Groth16 proof (valid or not)", "why_tests_cant": "an iff over all proofs", "anchors": ["src/saver_groth16.rs:verify_proof", "src/saver_groth16.rs:create_proof", "src/saver_groth16.rs:calculate_d", "src/saver_groth16.rs:verify_qap_proof"]}
{"id": "C34", "title": "SNARK proof verification works with the distributed key", "statement": "The same equivalence holds when the encryption key was produced by any number of parties with the distributed key generation.", "quantifier": "every number of parties, SRS, message, randomness", "why_tests_cant": "tests use two parties and one seed", "anchors": ["src/saver_groth16.rs:verify_proof", "src/keygen.rs:combineEKs"]}
{"id": "C35", "title": "proof verification alone does not bind the ciphertext chunks", "statement": "verify_proof looks only at the sum of the ciphertext elements: it returns the same outcome for every rearrangement or redistribution of the chunks. So verify_proof alone is refuted as a check of ciphertext integrity; verify_commitment_and_proof rejects any redistribution that changes the t-weighted sum.", "quantifier": "every ciphertext, redistribution, proof", "why_tests_cant": "adversarial ciphertexts", "anchors": ["src/saver_groth16.rs:calculate_d", "src/saver_groth16.rs:verify_proof", "src/encryption.rs:verify_commitment_and_proof"]}
{"id": "C36", "title": "combined verification is the conjunction", "statement": "verify_commitment_and_proof succeeds iff verify_commitment and verify_proof both succeed; a commitment failure takes precedence over a proof failure.", "quantifier": "every ciphertext, proof, key", "why_tests_cant": "all inputs", "anchors": ["src/encryption.rs:Ciphertext::verify_commitment_and_proof"]}
{"id": "C37", "title": "bit-size circuit accepts exactly the small values", "statement": "The constraint system generated by BitsizeCheckCircuit for b < MODULUS_BIT_SIZE is satisfiable with public inputs v_1..v_n iff every v_i < 2^b; hence out-of-range chunks cannot be proven, in-range chunks always can; b > MODULUS_BIT_SIZE panics.", "quantifier": "every vector of field elements, every b, every field", "why_tests_cant": "soundness ranges over all cheating witnesses", "anchors": ["src/circuit.rs:BitsizeCheckCircuit::generate_constraints"]}
{"id": "C38", "title": "circuit size and SRS shape", "statement": "The circuit has exactly num_values public inputs (so the verification key has chunks_count+1 entries and setup_for_groth16 never runs short of generators) and num_values*(2*bits - b + 1) constraints for b < bits; in particular 7920 for BLS12-381 with b = 16.", "quantifier": "every field, b, number of values", "why_tests_cant": "parametric in b and field", "anchors": ["src/circuit.rs:generate_constraints", "src/setup.rs:setup_for_groth16", "src/saver_groth16.rs:get_gs_for_encryption"]}
{"id": "C39", "title": "end-to-end completeness of encrypt_with_proof", "statement": "After setup_for_groth16, for every message encrypt_with_proof succeeds and its output passes verify_commitment_and_proof and decrypts to the message.", "quantifier": "every message, rng, b in {4,8,16}", "why_tests_cant": "all messages and randomness", "anchors": ["src/encryption.rs:encrypt_with_proof", "src/setup.rs:setup_for_groth16", "src/encryption.rs:verify_commitment_and_proof"]}
{"id": "C40", "title": "generators derived from labels are deterministic, minimal and domain separated", "statement": "EncryptionGens::new / ChunkedCommitmentGens::new return, for each generator, the point of the first successful attempt in the sequence label-tag, label-tag-attempt-1, ...; hash inputs used for different (label, tag, attempt) are pairwise different (attempt < 2^56).", "quantifier": "every label, digest, decoder, attempt number", "why_tests_cant": "unbounded loop and all labels", "anchors": ["src/setup.rs:EncryptionGens::new", "src/setup.rs:ChunkedCommitmentGens::new", "src/utils.rs:projective_group_elem_from_try_and_incr"]}
{"id": "C41", "title": "serialization round trip", "statement": "Deserializing the serialized form of a ciphertext, encryption key, decryption key, partial key, share or secret key returns the same value, and bytes following it are left unread (so the serde adapter ignores trailing bytes).", "quantifier": "every value of each type, every trailing byte string", "why_tests_cant": "unbounded vectors; the serialization tests are commented out in the repository", "anchors": ["src/serde_utils.rs:AsCanonical", "src/encryption.rs:Ciphertext", "src/keygen.rs:EncryptionKey"]}
{"id": "C42", "title": "full aggregation pipeline", "statement": "Any number of parties, any number of ciphertexts: DKG, encrypting, adding all ciphertexts, re-encrypting with all shares and decrypting with the destination key returns the chunk-wise sums.", "quantifier": "every number of parties and ciphertexts", "why_tests_cant": "tests use 2 and 2", "anchors": ["src/tests.rs:encrypt_and_ver_distributed_with_addition"]}
{"id": "C43", "title": "decryption never panics for chunk sizes up to 31 and classifies shape errors", "statement": "For every b <= 31 decrypt_to_chunks (without table) never panics; it returns MalformedDecryptionKey, IncompatibleDecryptionKey or VectorShorterThanExpected exactly on the shape mismatches in that order; b >= 32 panics in debug builds for every well-shaped input.", "quantifier": "every ciphertext, key shape, u8 chunk size, both build profiles", "why_tests_cant": "all shapes and sizes", "anchors": ["src/encryption.rs:decrypt_to_chunks_given_pairing_powers", "src/encryption.rs:decrypt_to_chunks_after_re_encryption"]}
{"id": "C44", "title": "fixed-base window multiplication is plain multiplication", "statement": "multiply_field_elems_with_same_group_elem(g, xs) returns [x*g | x in xs] and the num_multiplications hint affects performance only: every window size yields the same results.", "quantifier": "every group element, scalar list, hint", "why_tests_cant": "all scalars and window sizes", "anchors": ["src/utils.rs:WindowTable", "src/utils.rs:multiply_field_elems_with_same_group_elem"]}
{"id": "C45", "title": "parallel builds compute the same results under every thread schedule", "statement": "With the default `parallel` feature (rayon), for every order in which worker threads finish, key generation, pairing-power preparation, encryption and batch verification return exactly what the sequential build returns; a parallel map always terminates and a parallel sum over group elements does not depend on how it is split.", "quantifier": "every thread schedule, every split tree, every input", "why_tests_cant": "schedules cannot be enumerated by tests", "anchors": ["src/keygen.rs:keygen", "src/keygen.rs:FkeygenPartial", "src/keygen.rs:EncryptionKey::prepare", "src/encryption.rs:encrypt_decomposed_message", "Cargo.toml:features"]}
{"id": "C46", "title": "chunked commitment is hiding, binding and additive", "statement": "For a fixed non-zero H, every commitment is a commitment to every message under exactly one blinding (perfect hiding); two different openings of one commitment reveal the discrete logarithm of G to base H (binding); the sum of commitments commits to the sum of messages under the sum of blindings.", "quantifier": "every message, blinding, generators", "why_tests_cant": "over all openings", "anchors": ["src/commitment.rs:ChunkedCommitment"]}
{"id": "C47", "title": "the encryption key determines what every ciphertext decrypts to", "statement": "Two runs of key generation that return the same encryption key give decryption keys that agree on every ciphertext, honest or not (same chunks or same error); and for every encryption key there is a decryption key for every secret key.", "quantifier": "every pair of key generation runs, every ciphertext", "why_tests_cant": "over all randomness and adversarial ciphertexts", "anchors": ["src/keygen.rs:keygen", "src/encryption.rs:decrypt_to_chunks"]}
{"id": "C48", "title": "a ciphertext has one plaintext and one randomness", "statement": "For every encryption key with X_0 not the identity, honest or not, a ciphertext is the encryption of at most one chunk list (chunks below the field order) under at most one randomness.", "quantifier": "every key, pair of messages and randomness", "why_tests_cant": "over all pairs of encryptions", "anchors": ["src/encryption.rs:encrypt_decomposed_message"]}
{"id": "C49", "title": "ciphertexts can be re-randomized and shifted by anybody", "statement": "Adding an encryption of zeros to any accepted ciphertext gives an accepted ciphertext with the same decryption and fresh randomness; adding an encryption of d gives an accepted ciphertext of the message plus d, so non-malleability (of the ciphertext without the range proof) does not hold.", "quantifier": "every accepted ciphertext, honest or not; every shift", "why_tests_cant": "over all ciphertexts and randomness", "anchors": ["src/encryption.rs:Encryption::add_cts", "src/encryption.rs:verify_ciphertext_commitment"]}
{"id": "C50", "title": "which encryption keys make honest ciphertexts verify", "statement": "EncryptionKey::validate accepts any key with matching lengths. All honest encryptions under a key verify iff its elements satisfy the pairing equations of an honest key; an honest key with a different P_1 passes validate and then rejects every honest ciphertext of non-zero randomness.", "quantifier": "every encryption key of consistent lengths", "why_tests_cant": "over all keys and ciphertexts", "anchors": ["src/keygen.rs:EncryptionKey::validate", "src/encryption.rs:verify_ciphertext_commitment"]}
{"id": "C51", "title": "one wrong P_1 share in the distributed key generation", "statement": "If one party sends a wrong P_1 share, the key is produced without an error, passes validate and differs only in P_1; honest ciphertexts under it do not verify (randomness other than 0), but re-encryption and decryption still deliver the message.", "quantifier": "every number of parties, position of the wrong share, wrong value", "why_tests_cant": "adversarial shares", "anchors": ["src/keygen.rs:combineP1share", "src/keygen.rs:keygenFinal", "src/keygen.rs:genP1share"]}
{"id": "C52", "title": "robustness of re-encryption does not hold", "statement": "A single party that adds d_i*g_i to its re-encryption share makes the destination decrypt to the message plus d without an error anywhere.", "quantifier": "every number of parties, position of the cheating party, shift d", "why_tests_cant": "adversarial shares", "anchors": ["src/encryption.rs:combine_re_encrypt_share", "src/encryption.rs:combine_ct_with_w", "src/encryption.rs:decrypt_to_chunks_after_re_encryption"]}
{"id": "C53", "title": "accepted proofs can be changed without being rejected", "statement": "verify_proof gives the same answer for a proof (A,B,C) and for (xA,yB,C) with xy=1 and for (A,B+k*delta_g2,C+k*A), for every verifying key, proof and ciphertext; hence for every accepted pair there is another accepted proof (proof non-malleability does not hold).", "quantifier": "every verifying key, proof, ciphertext, scalar", "why_tests_cant": "over all proofs and scalars", "anchors": ["src/saver_groth16.rs:verify_proof", "src/saver_groth16.rs:verify_qap_proof"]}
{"id": "C54", "title": "ciphertext and proof can be re-randomized together, but shifting the message is caught", "statement": "Adding an encryption of zeros with randomness r' to any ciphertext and r'*P_2 to the C element of its proof leaves the answer of verify_proof unchanged and keeps verify_commitment_and_proof accepting; doing the same with an encryption of d is accepted iff sum d_i*W_i is the identity, otherwise PairingCheckFailed.", "quantifier": "every honest key on an SRS, every ciphertext and proof, shift, randomness", "why_tests_cant": "over all ciphertexts, proofs and shifts", "anchors": ["src/encryption.rs:Ciphertext::verify_commitment_and_proof", "src/saver_groth16.rs:calculate_d", "src/encryption.rs:add_cts"]}
{"id": "C55", "title": "pairing-power tables through the verifying key", "statement": "After setup_for_groth16 pairing_powers_given_groth16_vk succeeds (chunk sizes 1..30) on both forms of the decryption key and decrypt_given_groth16_vk_and_pairing_powers with it returns exactly what decrypt_given_groth16_vk returns, for every ciphertext and secret key; so encrypt_with_proof followed by it returns the message. For any verifying key, encrypt_given_snark_vk and all functions and methods that take it behave as those that take generators, given gamma_abc_g1 without its first element, and panic when there is none; after a setup encrypt_given_snark_vk makes the ciphertext of encrypt_with_proof and all four ways of decrypting it return the message and sk*X_r.", "quantifier": "every setup run, ciphertext, chunk size, build profile", "why_tests_cant": "all ciphertexts", "anchors": ["src/keygen.rs:pairing_powers_given_groth16_vk", "src/encryption.rs:decrypt_given_groth16_vk_and_pairing_powers", "src/setup.rs:setup_for_groth16"]}
{"id": "C56", "title": "unsupported chunk sizes", "statement": "For chunk sizes other than 4, 8, 16 encrypt fails with UnexpectedBase for every key and decrypt never succeeds, but key generation does not refuse them: it returns keys that validate, with which no message can be encrypted although chunk lists can.", "quantifier": "every u8 chunk size, message, key", "why_tests_cant": "all sizes, keys and messages", "anchors": ["src/keygen.rs:keygen", "src/encryption.rs:encrypt", "src/utils.rs:decompose", "src/utils.rs:compose"]}
{"id": "C57", "title": "exact use of randomness", "statement": "keygen draws exactly 3n+2 scalars, FkeygenPartial 2n+1, encrypt, encrypt_decomposed_message, re_encrypt_share and Fkeygen_dest exactly one; results depend on the generator only through these scalars (replaying them reproduces the result, error or panic). EncryptionGens::new_using_rng is the first G1 element drawn and the G2 element drawn next, ChunkedCommitmentGens::new_using_rng two successive draws of G1 elements (not the same draw twice), and nothing else is drawn. No drawn scalar is discarded or replaced: the secret key of keygen and of Fkeygen_dest, the secrets of FkeygenPartial and the randomness returned by encrypt are the drawn scalars, and (for generators other than the identity and a nonzero secret key) the published keys, the first element of a ciphertext and the g_r of a share determine every scalar drawn. create_proof draws exactly 2 scalars and encrypt_with_proof 3, for every Groth16 implementation; generate_srs with ark-groth16 draws 4, then scalars until one is outside the evaluation domain, and setup_for_groth16 3n+2 more; the published keys determine the four secrets, the evaluation point and the 3n+2 scalars, and a proof determines both of its masks.", "quantifier": "every random generator and state", "why_tests_cant": "every generator implementation and state", "anchors": ["src/keygen.rs:keygen", "src/keygen.rs:FkeygenPartial", "src/keygen.rs:Fkeygen_dest", "src/encryption.rs:encrypt", "src/encryption.rs:re_encrypt_share", "src/setup.rs:EncryptionGens::new_using_rng", "src/setup.rs:ChunkedCommitmentGens::new_using_rng", "src/setup.rs:setup_for_groth16", "src/saver_groth16.rs:generate_srs", "src/saver_groth16.rs:create_proof", "src/encryption.rs:encrypt_with_proof"]}
{"id": "C58", "title": "reused randomness reveals message differences", "statement": "Two ciphertexts made under one key with the same randomness have the same first element and their i-th chunks differ by (m_i - m'_i)*g_i, so chunk equality is publicly visible; with different randomness the first elements differ.", "quantifier": "every key, pair of messages, randomness", "why_tests_cant": "over all message pairs", "anchors": ["src/encryption.rs:encrypt_decomposed_message"]}
{"id": "C59", "title": "accepted ciphertexts are encryptions of known b-bit chunks (statistical knowledge soundness)", "statement": "A prover that outputs fixed linear combinations of the published elements (proving key, encryption key and decryption key) and is accepted by verify_commitment_and_proof has, except on a fraction (4*|domain|+7*(3n+6))/p of the setups, produced an encryption under the published key of chunks below 2^b that can be read off its coefficients. The honest prover is such a strategy; with knowledge of the setup secrets any chunks can be passed off.", "quantifier": "every affine prover strategy, all random tapes of setup_for_groth16, every evaluation domain, curve, chunk size", "why_tests_cant": "quantifies over all cheating provers and counts over all setups", "anchors": ["src/saver_groth16.rs:verify_proof", "src/encryption.rs:Ciphertext::verify_commitment_and_proof", "src/setup.rs:setup_for_groth16", "src/saver_groth16.rs:generate_srs", "src/circuit.rs:BitsizeCheckCircuit"]}
{"id": "C60", "title": "accepted ciphertexts decrypt", "statement": "For the same provers and all but a similar fraction of the setups (chunk sizes up to 16): whatever verify_commitment_and_proof accepts is decrypted by the key holder, with success, to exactly the chunks that can be read off the prover's coefficients.", "quantifier": "every affine prover strategy, all random tapes of setup_for_groth16, chunk sizes 1..16", "why_tests_cant": "quantifies over all cheating provers and counts over all setups", "anchors": ["src/encryption.rs:decrypt_to_chunks", "src/encryption.rs:Ciphertext::verify_commitment_and_proof", "src/setup.rs:setup_for_groth16"]}
{"id": "C61", "title": "the commitment check alone", "statement": "Without the SNARK proof, acceptance by verify_commitment still means (except on the same fraction of setups) that the ciphertext is an encryption of chunks of arbitrary size readable off the prover's coefficients.", "quantifier": "every affine prover strategy, all random tapes of setup_for_groth16", "why_tests_cant": "quantifies over all cheating provers and counts over all setups", "anchors": ["src/encryption.rs:verify_ciphertext_commitment", "src/keygen.rs:keygen"]}
{"id": "C62", "title": "proofs reveal nothing beyond the ciphertext (perfect zero knowledge)", "statement": "After a setup, for fixed message and encryption randomness, as the prover's two random scalars range over all pairs the proofs returned by encrypt_with_proof are exactly the simulated proofs A=a*G, B=b*H, C=delta^-1(ab*G-alpha*beta*G-gamma*(X_r+sum c_i+W_0)), each for exactly one pair; the simulation uses the ciphertext and the setup secrets but not the message or randomness, and the ciphertext does not depend on the two scalars.", "quantifier": "every setup run, message, encryption randomness, all pairs of prover scalars", "why_tests_cant": "a statement about the whole distribution of proofs", "anchors": ["src/saver_groth16.rs:create_proof", "src/encryption.rs:encrypt_with_proof", "src/setup.rs:setup_for_groth16"]}
{"id": "C63", "title": "the setup secrets can prove anything", "statement": "Whoever knows alpha, beta, gamma, delta of the SRS can make verify_proof accept any ciphertext, with any first two proof elements and exactly one third; so encryptions of out-of-range chunks pass the combined check and cannot be decrypted.", "quantifier": "every verifying key with known discrete logarithms, every ciphertext", "why_tests_cant": "over all ciphertexts and keys", "anchors": ["src/saver_groth16.rs:verify_proof", "src/saver_groth16.rs:generate_srs", "src/encryption.rs:Ciphertext::verify_commitment_and_proof"]}
{"id": "C64", "title": "a ciphertext with its proof hides the message from generic observers", "statement": "Anyone who sees every published key (including the decryption key, not the secret key), a ciphertext and its proof, and adaptively tests q products of pairings of these elements for being one, guesses the same for any two messages up to a probability difference of (N+2q(3N+9(3n+9)))/p over uniform setup and encryption randomness. The bound needs the randomness: an observer knowing it tells two different ciphertexts apart with one question.", "quantifier": "every generic observer (adaptive pairing-product tests), all pairs of messages, all coins counted exhaustively", "why_tests_cant": "quantifies over all observers and counts over all executions", "anchors": ["src/encryption.rs:encrypt_with_proof", "src/setup.rs:setup_for_groth16", "src/saver_groth16.rs:create_proof"]}
{"id": "C65", "title": "join! is schedule independent", "statement": "The exported macro join! with the feature parallel, given one to six expressions, returns under every thread schedule the tuple of their values in argument order (a panic if one of them panics), exactly like the sequential version; with seven or more it is not usable.", "quantifier": "all schedules of all expressions, every number of arguments", "why_tests_cant": "thread schedules cannot be enumerated by tests", "anchors": ["src/macros.rs:join", "src/macros.rs:unnest_tuple"]}
{"id": "C66", "title": "many ciphertexts under one key together hide their messages", "statement": "An observer of the published keys and of k ciphertexts with proofs made one after the other under one encryption key, testing q adaptively chosen products of pairings over all these elements, guesses the same for any two lists of k messages up to (N+2qk(3N+9(3n+9)))/p; unless gamma, delta or tau is degenerate the execution shows k accepted ciphertexts.", "quantifier": "every generic observer, any number of ciphertexts, all pairs of message lists, all coins", "why_tests_cant": "quantifies over all observers and counts over all executions", "anchors": ["src/encryption.rs:encrypt_with_proof", "src/setup.rs:setup_for_groth16", "src/saver_groth16.rs:create_proof"]}
{"id": "C67", "title": "all parties but one of the distributed key generation learn nothing about messages", "statement": "The encryption key is made by FkeygenPartial, combineEKs, genP1share, combineP1share, keygenFinal. Whatever scalars all parties but one used (fixed in advance, known to the observer), an observer of every contribution and P_1 share, the key, the SRS and k ciphertexts with proofs, testing q adaptively chosen products of pairings, guesses the same for any two lists of k messages up to (N+2qk(3N+9(3n+9)))/p over the honest party's and the encryptor's randomness. The execution is not degenerate: it shows k accepted ciphertexts.", "quantifier": "any number and position of corrupted parties, all their secrets, every generic observer, all pairs of message lists, all coins", "why_tests_cant": "quantifies over all coalitions and observers and counts over all executions", "anchors": ["src/keygen.rs:FkeygenPartial", "src/keygen.rs:combineEKs", "src/keygen.rs:genP1share", "src/keygen.rs:combineP1share", "src/keygen.rs:keygenFinal", "src/encryption.rs:encrypt_with_proof"]}
{"id": "C68", "title": "adaptive cheating provers", "statement": "A prover that, after seeing every published key, adaptively tests t products of pairings of the published elements for being one and then outputs a ciphertext and proof made of linear combinations of them chosen by the answers, is accepted with a ciphertext that is not an encryption of the b-bit chunks readable off its coefficients on at most a fraction (4N+7(3n+6)+t(3N+7(3n+6)))/p of the setups; likewise for decryption by the key holder and for the commitment check alone.", "quantifier": "every generic prover (adaptive pairing-product tests), all setups counted exhaustively", "why_tests_cant": "quantifies over all provers and counts over all setups", "anchors": ["src/encryption.rs:Ciphertext::verify_commitment_and_proof", "src/setup.rs:setup_for_groth16", "src/encryption.rs:decrypt_to_chunks"]}
{"id": "C69", "title": "all parties but one of the distributed key generation know what they encrypt", "statement": "When the encryption key is made by the distributed key generation, all parties but one may collude (with secrets fixed before the honest party draws its own; see C32 for parties that choose theirs afterwards), see every contribution, P_1 share, the final key and the SRS, adaptively test t products of pairings and output linear combinations of all of it: verification accepts something that is not an encryption under the final key of the b-bit chunks readable off the coefficients on at most a fraction (4N+7(3n+6)+t(3N+7(3n+6)))/p of the coins of the SRS and the honest party; likewise for the commitment check alone.", "quantifier": "every number and position of parties, every secret of the colluding ones, every generic prover, all coins counted exhaustively", "why_tests_cant": "quantifies over all coalitions and provers and counts over all executions", "anchors": ["src/keygen.rs:FkeygenPartial", "src/keygen.rs:combineEKs", "src/keygen.rs:genP1share", "src/keygen.rs:combineP1share", "src/keygen.rs:keygenFinal", "src/encryption.rs:Ciphertext::verify_commitment_and_proof", "src/encryption.rs:Ciphertext::verify_commitment"]}
{"id": "C70", "title": "re-encryption shares are bound to the ciphertext they were requested for (refuted)", "statement": "Refuted: re_encrypt_share reads the chunks only for their number, so shares handed out for a request with the victim's first element and arbitrary junk chunks open the victim's ciphertext to the requester. Checking the requested ciphertext and proof first does not help: from public values the requester makes another ciphertext with a proof that passes verify_commitment_and_proof and whose re-encryption it decrypts to the victim's message, for every number of parties, message and randomness.", "quantifier": "every key, number of parties, message, randomness and chunk size (attack succeeds for all)", "why_tests_cant": "loss of confidentiality for all executions is invisible to functional tests", "anchors": ["src/encryption.rs:re_encrypt_share", "src/encryption.rs:combine_ct_with_w", "src/encryption.rs:decrypt_to_chunks_after_re_encryption", "src/encryption.rs:Ciphertext::verify_commitment_and_proof"]}
{"id": "C71", "title": "verifiability against a rushing party of the distributed key generation (refuted)", "statement": "Whoever knows the scalars t behind the Z part of the key turns every accepted ciphertext with proof into one that is accepted again, with any amount moved between the first two chunks; moving 2^16 units makes it undecryptable under every chunk size. The last party of the distributed key generation, seeing the others' contributions and shares before sending its own, is in that position for its own coins: so accepted ciphertexts need not decrypt (C60, C69 need secrets fixed beforehand).", "quantifier": "every number of honest parties, all coins of the attacker, every accepted ciphertext, every redistributed amount, both build profiles, all chunk sizes", "why_tests_cant": "needs all ciphertexts and an adversarial order of protocol messages", "anchors": ["src/keygen.rs:combineEKs", "src/keygen.rs:genP1share", "src/keygen.rs:combineP1share", "src/keygen.rs:keygenFinal", "src/encryption.rs:Ciphertext::verify_commitment_and_proof", "src/encryption.rs:decrypt_to_chunks"]}
{"id": "C72", "title": "re-encryption of sums reveals the requested sums and nothing else", "statement": "The key is made by the distributed key generation with all parties but one colluding (secrets fixed beforehand), k messages are encrypted with proofs under it, and an interactive client that sees everything published may adaptively test q products of pairings and submit any number of requests: select published ciphertexts, have them added, and receive every party's re_encrypt_share of the sum to a destination key of its choice (any combination of what it has seen). For two lists of messages with the same chunk-wise sums over every selection it may request, its guesses differ on at most a fraction (N+2qk(3N+9(3n+9)))/p of the coins, the same bound as without requests. The requests are answered, and a destination that knows its secret decrypts exactly the sum when it fits.", "quantifier": "all coalitions but one, every interactive generic client, any number of requests, all pairs of message lists with equal requested sums, all coins", "why_tests_cant": "quantifies over all clients and counts over all executions", "anchors": ["src/encryption.rs:re_encrypt_share", "src/encryption.rs:add_cts", "src/encryption.rs:combine_ct_with_w", "src/encryption.rs:decrypt_to_chunks_after_re_encryption", "src/keygen.rs:FkeygenPartial", "src/keygen.rs:combineEKs", "src/keygen.rs:keygenFinal"]}
{"id": "C73", "title": "what can be made from ciphertexts one has seen (non-malleability up to re-randomization)", "statement": "A prover sees every published key and k honest ciphertexts with proofs (messages of its choice, fixed beforehand), adaptively tests t products of pairings of all of it and outputs a ciphertext and proof made of linear combinations. On all but a fraction (N + t(3N+7(3n+6)) + 4N+7(3n+6) + k(t+k)(3N+9(3n+9)))/p of the coins, what verify_commitment_and_proof accepts is either an encryption of b-bit chunks readable off its coefficients, or one of the k ciphertexts with an encryption of zeros of known randomness added (and the proof's A a multiple of that of the same ciphertext): in particular it cannot combine ciphertexts or shift a message. Both exceptions are real: re-randomized copies encrypt the copied message and are accepted, by strategies that need no tests; and knowing the coins every execution can be cheated.", "quantifier": "every generic prover (adaptive tests), any number of honest ciphertexts, all messages, all coins counted exhaustively", "why_tests_cant": "quantifies over all provers and counts over all executions", "anchors": ["src/encryption.rs:Ciphertext::verify_commitment_and_proof", "src/encryption.rs:encrypt_with_proof", "src/setup.rs:setup_for_groth16", "src/saver_groth16.rs:create_proof", "src/saver_groth16.rs:verify_proof"]}
{"id": "C74", "title": "non-malleability against all parties but one of the distributed key generation", "statement": "All parties but one of the distributed key generation (tapes fixed beforehand, otherwise arbitrary, any number of parties before and after the honest one) see every contribution, every P_1 share, the combined key, the SRS and k honest ciphertexts with proofs under that key, adaptively test t products of pairings and output a ciphertext and proof made of linear combinations. On all but a fraction (N + t(3N+7(3n+6)) + 4N+7(3n+6) + k(t+k)(3N+9(3n+9)))/p of the coins, what verify_commitment_and_proof accepts under the combined key is an encryption of b-bit chunks readable off their coefficients or one of the k ciphertexts with an encryption of zeros of known randomness added. Copies are always possible, and knowing the honest party's coins every execution can be cheated.", "quantifier": "every coalition of all parties but one, every number of parties, every generic prover, any number of honest ciphertexts, all coins counted exhaustively", "why_tests_cant": "quantifies over all coalitions and provers and counts over all executions", "anchors": ["src/keygen.rs:FkeygenPartial", "src/keygen.rs:combineEKs", "src/keygen.rs:genP1share", "src/keygen.rs:combineP1share", "src/keygen.rs:keygenFinal", "src/encryption.rs:Ciphertext::verify_commitment_and_proof", "src/encryption.rs:encrypt_with_proof"]}
{"id": "C75", "title": "what the prover returns for values it should not prove", "statement": "With values that do not all fit into the chunk size, create_proof panics in a debug build. A release build makes a proof for every list of values of the right length; when a value does not fit, or the values are not the chunks of the ciphertext (and the secret beta is not zero), verify_proof rejects that proof with PairingCheckFailed, whatever the generators, the keys, the ciphertext's randomness and the other secrets, unless the setup's evaluation point is in a list of at most 2N-2 scalars (N the size of the evaluation domain). It does not matter which of the two computations of the quotient polynomial is used: on satisfied constraints the library's computation over a coset gives the same proofs as polynomial division, so it is a correct backend.", "quantifier": "all values, ciphertexts, keys, randomness, evaluation domains and all but 2N-2 evaluation points; both build profiles", "why_tests_cant": "the failure is an algebraic identity at a secret random point: tests sample one setup", "anchors": ["src/saver_groth16.rs:create_proof", "src/saver_groth16.rs:verify_proof", "src/saver_groth16.rs:generate_srs", "src/circuit.rs:BitsizeCheckCircuit::generate_constraints"]}
{"id": "C76", "title": "which secrets a cheating prover would have to know", "statement": "Knowing everything that decrypts does not help to cheat: for all fixed rho, s_1..s_n, v_1..v_n, a prover that may depend on them, adaptively tests t products of pairings of what is published and outputs linear combinations gets something accepted that is not an encryption of the b-bit chunks readable off its output on at most a fraction (4N+7(n+5)+t(3N+7(n+5)))/p of the remaining n+6 coins (alpha, beta, gamma, delta, evaluation point, t_0..t_n); the same for the commitment check alone, and, for rho and v other than zero, for decryption of what is accepted (plus n(N+2)/p). The other secrets do help: alpha, beta, gamma and the evaluation point alone give one strategy that has any chunks accepted on every setup with these values, and t_1-t_2 alone turns every accepted honest encryption into an accepted ciphertext that encrypts no b-bit chunks.", "quantifier": "all decryption secrets, every generic prover depending on them, all remaining coins counted exhaustively; for the attacks every setup, message and randomness", "why_tests_cant": "quantifies over all provers and counts over all executions", "anchors": ["src/setup.rs:setup_for_groth16", "src/encryption.rs:Ciphertext::verify_commitment_and_proof", "src/encryption.rs:Ciphertext::verify_commitment", "src/encryption.rs:decrypt_to_chunks", "src/keygen.rs:keygen"]}
{"id": "C77", "title": "privacy against an attacker with a decryption service", "statement": "An attacker sees every published key (decryption key included) and k ciphertexts with proofs, makes t adaptive tests of products of pairings and q adaptive submissions of ciphertexts and proofs made of linear combinations of what it sees to a service that runs verify_commitment_and_proof and then decrypt_to_chunks with the secret key, and answers with the chunks unless they are those of a protected message. Then (1) for any two lists of k protected messages its result differs on at most a fraction (N + 1+n+n(N+2) + 2Tk(3N+9(3n+9)) + 2q F)/p of the coins, with T = t+2q and F = T(3N+7(3n+6)) + 4N+7(3n+6) + k(T+k)(3N+9(3n+9)), and its probabilities of saying yes differ by no more; (2) it gets something accepted that is neither an encryption of b-bit chunks readable off its coefficients nor a re-randomized copy on at most a fraction (N + 1+n+n(N+2) + (q+1)F)/p of the coins. The service does decrypt everything else honest; without protection one submission reveals any message, and if the service checks only the commitment (verify_commitment) and not the proof, one submission tells protected messages apart.", "quantifier": "every generic attacker with any number of tests and submissions, every list of protected messages, all coins counted exhaustively; for the attacks every setup that does not yield zero secrets", "why_tests_cant": "quantifies over all attackers and all interaction histories with the service and counts over all executions", "anchors": ["src/encryption.rs:Ciphertext::verify_commitment_and_proof", "src/encryption.rs:Ciphertext::verify_commitment", "src/encryption.rs:decrypt_to_chunks", "src/encryption.rs:encrypt_with_proof", "src/setup.rs:setup_for_groth16"]}
{"id": "C78", "title": "privacy when the attacker chooses the messages during the attack", "statement": "An attacker sees every published key (decryption key included) and works in any order, each move depending on all answers so far: it makes t tests of products of pairings of what it has seen, q submissions of ciphertexts and proofs made of linear combinations of what it has seen to a service that runs verify_commitment_and_proof and decrypt_to_chunks and answers with the chunks unless they are those of a message offered so far, and it offers k pairs of messages, of which always the first or always the second is encrypted with encrypt_with_proof and shown to it. Then (1) whether the first or the second messages are encrypted changes its result on at most a fraction (N + 1+n+n(N+2) + 4T(k+1)(3N+9(3n+9)) + 2q F)/p of the coins, T = t+2q, F = 4N+7(3n+6) + k^2(3N+9(3n+9)), and its numbers of yes differ by no more; (2) what it gets accepted in the end is neither an encryption of b-bit chunks readable off its coefficients nor a re-randomized copy on at most a fraction (N + 1+n+n(N+2) + 3T(k+1)(3N+9(3n+9)) + (q+1)F)/p of the coins. The game always comes to an end when the setup succeeds, and attackers of C77 whose protected messages are offered first are the special case of offers before all other moves.", "quantifier": "every generic attacker with any number of tests, submissions and offers in any order, all coins counted exhaustively", "why_tests_cant": "quantifies over all attackers and all interaction histories and counts over all executions", "anchors": ["src/encryption.rs:Ciphertext::verify_commitment_and_proof", "src/encryption.rs:decrypt_to_chunks", "src/encryption.rs:encrypt_with_proof", "src/setup.rs:setup_for_groth16"]}
{"id": "C79", "title": "exact results of the re-encryption functions and of the search for chunks on any inputs", "statement": "On arbitrary inputs: re_encrypt_share draws one scalar r and returns -s_i c_0 + r pk for every chunk and r G, looking at the chunks only for their number, and panics exactly when there are more chunks than secrets; combine_ct_with_w adds w_i to chunk i, ignores superfluous w and panics when there are too few; decrypt_to_chunks_after_re_encryption and decrypt_to_chunks (any prepared key of matching lengths) return for every chunk the smallest value up to 2^min(b,16)-1 whose multiple of the chunk's base is the unmasked chunk, and CouldNotFindDiscreteLog exactly when some chunk has none; no other outcome occurs.", "quantifier": "all group elements, keys, secrets, list lengths, chunk sizes 1..31 and both build profiles", "why_tests_cant": "must hold for all inputs including dishonest ones", "anchors": ["src/encryption.rs:re_encrypt_share", "src/encryption.rs:combine_ct_with_w", "src/encryption.rs:decrypt_to_chunks_after_re_encryption", "src/encryption.rs:decrypt_to_chunks", "src/encryption.rs:solve_discrete_log"]}
{"id": "C80", "title": "privacy and non-malleability against all parties but one, with messages chosen during the attack and decryption by the parties together", "statement": "All parties but one of the distributed key generation (tapes fixed beforehand, otherwise arbitrary, any number of parties before and after the honest one) see every contribution, every P_1 share, the combined key and the SRS, and work as the attackers of C78: in any order t tests of products of pairings, k offers of pairs of messages, of which always the first or always the second is encrypted with encrypt_with_proof under the combined key, and q submissions to a service provided by the parties together: they run verify_commitment_and_proof, then a destination makes a key (Fkeygen_dest), every party makes its share (re_encrypt_share), the shares are combined (combine_re_encrypt_share, combine_ct_with_w) and the destination decrypts and tells the chunks unless they are those of an offered message. The bounds of C78 hold over all 2n+6+3k coins: which messages are encrypted changes the result on at most a fraction (N + 1+n+n(N+2) + 4T(k+1)(3N+9(3n+9)) + 2q F)/p of the coins, and something other than a fresh encryption of readable chunks or a re-randomized copy is accepted on at most a fraction (N + 1+n+n(N+2) + 3T(k+1)(3N+9(3n+9)) + (q+1)F)/p. The game ends whenever the setup succeeds, the parties do open whatever is not protected, and all but a fraction (N+2+1+n+n(N+2))/p of the executions are such that they do. One party that adds a multiple of g_1 to its share makes the service open protected messages, so the shares must be honest.", "quantifier": "every coalition of all parties but one, every number of parties, every generic attacker with any number of tests, submissions and offers in any order, every random generator used for the shares, all coins counted exhaustively", "why_tests_cant": "quantifies over all coalitions, attackers and interaction histories and counts over all executions", "anchors": ["src/encryption.rs:re_encrypt_share", "src/encryption.rs:combine_re_encrypt_share", "src/encryption.rs:combine_ct_with_w", "src/encryption.rs:decrypt_to_chunks_after_re_encryption", "src/encryption.rs:Ciphertext::verify_commitment_and_proof", "src/encryption.rs:encrypt_with_proof", "src/keygen.rs:FkeygenPartial", "src/keygen.rs:Fkeygen_dest", "src/keygen.rs:combineEKs", "src/keygen.rs:genP1share", "src/keygen.rs:combineP1share", "src/keygen.rs:keygenFinal"]}
{"id": "C81", "title": "chunk sizes outside the supported ones in debug and release builds", "statement": "For chunk sizes of 32 and more, a release build decrypts (with or without a table of pairing powers, with a secret key or after re-encryption) and computes tables of pairing powers exactly as for the chunk size modulo 32, on all inputs; in particular for multiples of 32 only the chunks 0 and 1 are found and everything else is CouldNotFindDiscreteLog. A debug build panics if everything else is in order, and otherwise reports the same error as for the chunk size 16. Tables of pairing powers have max(1, 2^(b mod 32) - 1) entries per chunk, the j-th being j times e(g_i, V_2,i), for every b up to 255 in a release build and every b up to 30 in a debug build, and a debug build panics for b = 31 already. A release build's commitment key for a chunk size of 32 or more has the number of entries for that size but consists of powers of 2^(b mod 32).", "quantifier": "all chunk sizes 0..255, both build profiles, all inputs (for the tables all keys with vectors of equal length)", "why_tests_cant": "the behaviour differs between build profiles and must be known for all inputs and chunk sizes; tests run one profile and three sizes", "anchors": ["src/encryption.rs:decrypt_to_chunks_given_pairing_powers", "src/encryption.rs:decrypt_to_chunks", "src/encryption.rs:decrypt_to_chunks_after_re_encryption", "src/keygen.rs:PreparedDecryptionKey::pairing_powers", "src/commitment.rs:ChunkedCommitment::commitment_key"]}
{"id": "C82", "title": "messages stay secret when one P_1 share is dishonest (refuted)", "statement": "Refuted: all contributions of the distributed key generation and all other P_1 shares are honest; the last party waits for the other shares and sends k X_0 minus their sum, k a scalar of its choice. The key is produced, passes validate and differs from the honest one only in P_1 = k X_0, and decryption still works (C51). For every honest ciphertext under it, the commitment minus k times its first element is the sum of m_i Y_i: whoever knows k tests any candidate message, the right one always matches, a message with one unknown chunk is always found, and wrong candidates match for at most a fraction 1/p of one honest party's coins. (Honest ciphertexts do not verify under such a key, C51: encryptors must verify their own ciphertexts before publishing them; C67 and C80 assume the honest shares.)", "quantifier": "every number of parties, all contributions, keys, k, messages, candidates and randomness; counting over all coins of one honest party", "why_tests_cant": "quantifies over all runs and messages; functional tests of key generation and decryption pass", "anchors": ["src/keygen.rs:combineP1share", "src/keygen.rs:genP1share", "src/keygen.rs:keygenFinal", "src/keygen.rs:combineEKs", "src/keygen.rs:FkeygenPartial", "src/encryption.rs:encrypt_decomposed_message"]}
{"id": "C83", "title": "security margins and correctness at the deployed parameters (BLS12-381)", "statement": "On a pairing group with the scalar field of BLS12-381 (the one /repo's tests use), with chunks of 4, 8 or 16 bits and Groth16 as the library computes it (radix-2 domains, quotient on the coset of the generator 7): the circuits have 64, 32, 16 chunks and fit domains of 32768, 16384, 8192 points, which exist and are multiplicative groups; all but a fraction 2^-230 of the setups give keys with which every message is encrypted with an accepted proof and decrypted correctly; and attackers that only use the group operations, with up to 2^64 tests and submissions and up to 2^20 chosen messages, tell which messages are encrypted with advantage at most 2^-128, get undecryptable or unknown contents accepted on at most 2^-128 of the coins, and the same when they are all parties but one of the distributed key generation.", "quantifier": "every pairing group over this scalar field, supported chunk size, message, random generator, attacker within the budget; all coins counted exhaustively", "why_tests_cant": "counts over all coins and quantifies over all attackers; tests draw a few coins", "anchors": ["src/setup.rs:setup_for_groth16", "src/saver_groth16.rs:generate_srs", "src/saver_groth16.rs:create_proof", "src/encryption.rs:encrypt_with_proof", "src/encryption.rs:Ciphertext::verify_commitment_and_proof", "src/encryption.rs:decrypt_given_groth16_vk", "src/circuit.rs:BitsizeCheckCircuit", "src/keygen.rs:FkeygenPartial"]}
{"id": "C84", "title": "parties that contribute last gain nothing as long as they know their own secrets", "statement": "All parties but one of the distributed key generation first look at the SRS and at the honest party's contribution, as often as they like and adaptively, and only then decide how many they are, where the honest party comes in the order, which random numbers their own contributions are made of, and how to attack: with further tests, with messages chosen during the attack, and with everything else decrypted by the parties together. What they look at is what the key generation then uses. Each look adds at most (3N + 7(3n+6))/p to the bound of C80 on telling which messages are encrypted and on getting unknown or undecryptable contents accepted; with the parameters of BLS12-381 and fewer than 2^64 looks, tests and submissions and at most 2^20 pairs of messages both stay below 2^-128. (Without knowledge of the secrets behind the contributions this is false: C32, C71.)", "quantifier": "every pairing group, supported chunk size, number and order of parties, plan of looks, tapes, attacker, service random generator; counting over all coins of the setup, the honest party and the encryptions", "why_tests_cant": "quantifies over all adaptive coalitions and counts over all executions", "anchors": ["src/keygen.rs:FkeygenPartial", "src/keygen.rs:combineEKs", "src/keygen.rs:genP1share", "src/keygen.rs:combineP1share", "src/keygen.rs:keygenFinal", "src/saver_groth16.rs:generate_srs", "src/encryption.rs:encrypt_with_proof", "src/encryption.rs:re_encrypt_share", "src/encryption.rs:Ciphertext::verify_commitment_and_proof"]}
{"id": "C85", "title": "the shares an honest party makes in joint decryptions reveal only what is decrypted", "statement": "All parties but one of the distributed key generation play the game of C80 and also take part in the joint decryptions: whenever a submission is verified, can be decrypted and is not one of the offered messages, they see the honest party's re-encryption share of it, -s_j c_0 + rho D for every chunk and rho G, for a destination key D of their choice (any combination of what is on the table) and even if they know the random number rho; these shares can be used in everything they do afterwards, in tests, submissions and further destinations. A coalition of the same size that sees no shares finds out the same, in both worlds, and makes the same final submission, on all but few coins. So the bounds of C80 on telling which messages are encrypted, and on getting accepted what is neither an encryption of b-bit chunks nor a rerandomized copy, hold with an extra factor of about the number q of submissions; with the parameters of BLS12-381, up to 2^20 pairs of messages and (q+1)(t+2q) <= 2^64 both stay below 2^-128. The game comes to an end whatever the coalition does, and shows whole shares only, at most one per submission.", "quantifier": "every pairing group, supported chunk size, number and order of parties, tapes of the other parties, attacker, random generators of the service and of the honest party; counting over all coins of the setup, the honest party and the encryptions", "why_tests_cant": "quantifies over all adaptive coalitions and counts over all executions", "anchors": ["src/encryption.rs:re_encrypt_share", "src/encryption.rs:combine_re_encrypt_share", "src/encryption.rs:decrypt_to_chunks_after_re_encryption", "src/keygen.rs:FkeygenPartial", "src/keygen.rs:Fkeygen_dest", "src/encryption.rs:encrypt_with_proof", "src/encryption.rs:Ciphertext::verify_commitment_and_proof"]}
{"id": "C86", "title": "parties that contribute last and see decryption shares gain nothing", "statement": "All parties but one of the distributed key generation first look at the SRS and at the honest party's contribution, as often as they like and adaptively, then decide how many they are, where the honest party comes in the order, which random numbers their own contributions are made of and how to attack (as in C84), and then take part in joint decryptions in which they see the honest party's re-encryption share of everything that is opened, for destination keys of their choice (as in C85). The bounds of C85 on telling which messages are encrypted, and on getting accepted what is neither an encryption of b-bit chunks nor a rerandomized copy, hold with about (3N + 7(3n+6))/p added per look and multiplied by q + 1; with the parameters of BLS12-381, up to 2^20 pairs of messages and (q+1)(t+2q+looks+1) <= 2^64 both stay below 2^-128. The game comes to an end whatever the coalition decides, and what it decides is one of the branches of its plan.", "quantifier": "every pairing group, supported chunk size, number and order of parties, plan of looks, tapes, attacker, random generators of the service and of the honest party; counting over all coins of the setup, the honest party and the encryptions", "why_tests_cant": "quantifies over all adaptive coalitions and counts over all executions", "anchors": ["src/encryption.rs:re_encrypt_share", "src/encryption.rs:combine_re_encrypt_share", "src/encryption.rs:decrypt_to_chunks_after_re_encryption", "src/keygen.rs:FkeygenPartial", "src/keygen.rs:combineEKs", "src/keygen.rs:Fkeygen_dest", "src/saver_groth16.rs:generate_srs", "src/encryption.rs:encrypt_with_proof", "src/encryption.rs:Ciphertext::verify_commitment_and_proof"]}
{"id": "C87", "title": "sums of accepted ballots are sums of small chunks, whoever cast them", "statement": "All parties but one of the distributed key generation, who contribute last, choose messages of an honest client and see decryption shares (C84-C86), end by casting a list of ballots: ciphertexts with proofs. If verify_commitment_and_proof accepts all of them then, on all but few coins, every ballot - those of the coalition and those of the client - is an encryption under the joint key of n chunks of b bits, the ciphertexts can be added with add_cts, and decrypting the sum together (with a chunk size b' into which the sum of v chunks of b bits fits) returns the chunk-wise sum of what is in the ballots, whatever randomness the parties and the destination use; nothing is decrypted on its own. So nobody adds more than 2^b - 1 to any position, subtracts anything, or makes the tally undecryptable. With the parameters of BLS12-381, up to 2^20 pairs of messages and (v+1)(q+1)(t+2q+looks+1) <= 2^64 this fails on at most 2^-128 of the coins; up to 4369 ballots of 4-bit chunks or 257 of 8-bit chunks fit b' = 16. The ballots need not be independent: the coalition casts a rerandomized copy of a ballot it has seen, it is accepted as a different ciphertext, and its unknown content is counted twice.", "quantifier": "every pairing group, supported chunk size, number and order of parties, plan of looks, tapes, coalition, ballots cast, random generators of service, honest party and decryption; counting over all coins of the setup, the honest party and the encryptions", "why_tests_cant": "quantifies over all adaptive coalitions and counts over all executions", "anchors": ["src/encryption.rs:add_cts", "src/encryption.rs:Ciphertext::verify_commitment_and_proof", "src/encryption.rs:re_encrypt_share", "src/encryption.rs:combine_re_encrypt_share", "src/encryption.rs:decrypt_to_chunks_after_re_encryption", "src/keygen.rs:FkeygenPartial", "src/keygen.rs:combineEKs", "src/keygen.rs:Fkeygen_dest", "src/saver_groth16.rs:generate_srs", "src/encryption.rs:encrypt_with_proof"]}
{"id": "C88", "title": "an election reveals the sum of the votes and nothing else about them", "statement": "All parties but one of the distributed key generation, who contribute last, choose messages of honest clients and see decryption shares (C84-C86), and dishonest voters: after their attack the coalition casts ballots, those that verify_commitment_and_proof accepts are added to the ciphertexts of the clients with add_cts, and the honest party sends its re-encryption share of the sum, for a destination key of the coalition's choice, whose secret it may know. Nothing else is decrypted except what the service of C85 opens. The clients vote differently in two worlds, but the chunk-wise sum of their votes is the same. Then, on all but few coins, the coalition says the same in both worlds at the end, whatever it computes - provided none of its counted ballots is a rerandomized copy of a client's ciphertext. With the parameters of BLS12-381, at most v ballots, u tests after the tally, up to 2^20 pairs of messages and (q+v+1)(t+2q+u+looks+1) <= 2^64 it says something different on at most 2^-128 of the coins. The election takes place whatever the coalition does, except on few coins; the bound also covers elections that fail in one world only. For coalitions that cast no ballots the numbers of coins on which they say yes in the two worlds differ by at most about that fraction, without any proviso. The proviso cannot be dropped: a coalition that casts a rerandomized copy of the ballot of one of two clients who may have swapped different votes is right about who cast which on almost all coins.", "quantifier": "every pairing group, supported chunk size, number and order of parties, plan of looks, tapes, coalition, ballots cast, destination, random generators of service and honest party; counting over all coins of the setup, the honest party and the encryptions", "why_tests_cant": "quantifies over all adaptive coalitions and counts over all executions", "anchors": ["src/encryption.rs:add_cts", "src/encryption.rs:re_encrypt_share", "src/encryption.rs:Ciphertext::verify_commitment_and_proof", "src/encryption.rs:encrypt_with_proof", "src/encryption.rs:decrypt_to_chunks_after_re_encryption", "src/keygen.rs:FkeygenPartial", "src/keygen.rs:combineEKs", "src/keygen.rs:Fkeygen_dest", "src/saver_groth16.rs:generate_srs"]}
{"id": "C89", "title": "ballots are cast independently of the votes of honest clients", "statement": "All parties but one of the distributed key generation, who contribute last, choose messages of honest clients and see decryption shares (C84-C86), and dishonest voters: after their attack they cast at most v ballots, ciphertexts with proofs, knowing all ciphertexts of the clients. In two worlds the clients encrypt the first or the second of the messages they were offered. On all but few coins the executions in both worlds end alike: with the same keys and offers, and, ballot by ballot, verify_commitment_and_proof accepts it in both worlds or in none, and if it accepts, the ballots contain the same chunks in both worlds - or both contain messages that were offered to clients, and in one of the worlds the ballot is a rerandomized ciphertext of a client. So without copies the accepted ballots contain the same votes in both worlds: a coalition cannot vote depending on votes it has only seen encrypted, except by copying a whole ballot. With the parameters of BLS12-381, up to 2^20 pairs of messages and (q+v+1)(t+2q+looks+1) <= 2^64 this fails on at most 2^-128 of the coins. The exception cannot be dropped: one fixed strategy casts, whenever the key generation works, a copy that is accepted and contains exactly the chunks of the client's message, whichever it is.", "quantifier": "every pairing group, supported chunk size, number and order of parties, plan of looks, tapes, coalition, ballots cast, random generators of service and honest party; counting over all coins of the setup, the honest party and the encryptions", "why_tests_cant": "quantifies over all adaptive coalitions and counts over all executions", "anchors": ["src/encryption.rs:Ciphertext::verify_commitment_and_proof", "src/encryption.rs:encrypt_with_proof", "src/encryption.rs:re_encrypt_share", "src/encryption.rs:decrypt_to_chunks_after_re_encryption", "src/keygen.rs:FkeygenPartial", "src/keygen.rs:combineEKs", "src/keygen.rs:Fkeygen_dest", "src/saver_groth16.rs:generate_srs"]}
{"id": "C90", "title": "whoever encrypts can prove what it encrypted (receipt-freeness refuted)", "statement": "The scalar that encrypt, encrypt_given_snark_vk and encrypt_with_proof return with a ciphertext is a receipt: whoever is shown the message and the scalar can encrypt again with it and obtains the same ciphertext, with whatever random number generator, build and implementation of Groth16 it was made. Receipts do not lie: whoever made the ciphertext, and however, if the check succeeds then verify_commitment accepts the ciphertext and every key pair with this encryption key decrypts it to the message of the receipt; and nobody has receipts for two messages, or two receipts for one, for any encryption key with X_0 not the identity. So votes can be sold: for every ciphertext there is exactly one receipt, which the client has. After somebody else re-randomized the ciphertext (and its proof, which is still accepted) there is exactly one receipt for the result, for the same message: the sum of the client's scalar and the scalar drawn. So the client's receipt is rejected unless the scalar drawn is 0.", "quantifier": "every pairing group, random number generators and states, supported chunk size, message, key pair, candidate receipt, Groth16 implementation", "why_tests_cant": "quantifies over all messages, ciphertexts, keys and candidate receipts", "anchors": ["src/encryption.rs:encrypt", "src/encryption.rs:encrypt_given_snark_vk", "src/encryption.rs:encrypt_with_proof", "src/encryption.rs:decrypt", "src/encryption.rs:Ciphertext::verify_commitment", "src/encryption.rs:add_cts"]}
{"id": "C91", "title": "mixing hides which ballot became which", "statement": "k messages are encrypted with proofs; a mixer then takes m of the ciphertexts in an order of its choice and adds an encryption of zeros to each. An observer who is shown all public elements of the keys, all ciphertexts and proofs, and the mixed ciphertexts in the mixer's order, and knows all messages, asks q adaptive questions about equations between pairings of what it is shown and guesses. For any two orders of length m (whichever ballots are repeated or left out) its answers differ on few coins: |yes - yes'| times the group order is at most |D| + 2qm(3|D| + 9(3n+9)) times the number of coins, D being the evaluation domain and n the number of chunks. The mixer delivers: on ciphertexts of messages, whatever generators made them, it succeeds and returns ciphertexts that verify_commitment accepts and that decrypt to the same messages in the same order. One mixed ciphertext hides everything but its contents perfectly: for two ciphertexts of the same message, whoever made them and knows their randomness, any test of the result holds for equally many scalars of the mixer; ciphertexts of different messages never lead to the same result. The experiment is not empty: on coins without a zero and with an evaluation point outside the domain everything succeeds. Proofs must not be mixed along: moving a proof with its ciphertext keeps its elements A and B, which shows everybody which ballot became which.", "quantifier": "every pairing group, supported chunk size, evaluation domain, messages, orders of mixing, adaptive observer, generators; counting over all coins of setup, clients and mixer", "why_tests_cant": "quantifies over all adaptive observers and counts over all coins", "anchors": ["src/encryption.rs:add_cts", "src/encryption.rs:encrypt_decomposed_message", "src/encryption.rs:encrypt_with_proof", "src/encryption.rs:encrypt", "src/encryption.rs:decrypt", "src/encryption.rs:Ciphertext::verify_commitment", "src/keygen.rs:keygen", "src/saver_groth16.rs:generate_srs"]}
