# Formal model of `dist-saver` (mghazwi/distributed-verifiable-encryption) in Coq 8.16.1

(The plan table was written before the proofs and extended as the model grew; everything else describes the current state.)

## Trusted base

* Coq 8.16.1's kernel (the build is re-checked with `coqchk`). `vm_compute` is used in a few concrete examples only.
* Axioms: none. `Assumptions.v` runs `Print Assumptions` on every theorem named in MANIFEST.json while it compiles; each of them
  prints "Closed under the global context". `coqchk` additionally lists `Coq.ssr.ssrunder.Under_rel.*` (opaque module of Coq's own
  ssreflect, loaded by the plugin files, used by no theorem here).
* No `Axiom`, `Parameter`, `Admitted`, functor, module type or disabled check. All oracles (pairing engine, hash function, decoder,
  random generator, evaluation domain, point codec) are explicit arguments of definitions and theorems, so statements hold for every choice.
* The correspondence between /repo and the definitions, established by reading: each definition cites the lines it models. The code
  was not run. Behaviour of the dependencies (arkworks 0.4, rayon, serde) is from knowledge of their sources, since they are not in the sandbox.

## Files (`rocq/theories`)

| file | content |
|---|---|
| `Base.v` | outcome monad (`Ok`/`Err`/`Panic`), panicking indexing, build profiles (debug/release overflow rules), machine-integer casts |
| `Algebra.v` | prime fields (`Z` mod a prime, limbs), abelian groups of exponent p, pairing engines: records of operations and laws |
| `Primality.v`, `Instance.v`, `Examples.v` | Pocklington certificates, concrete engines (the BLS12-381 scalar field; a 61-bit field E61), concrete keys and ciphertexts: they meet the hypotheses of the theorems |
| `Utils.v`, `Setup.v`, `Keygen.v`, `Encryption.v`, `Commitment.v`, `Circuit.v`, `Groth16.v`, `Serde.v` | executable model of the /repo/src file of that name (`Groth16.v`: saver_groth16.rs plus the Groth16 parts of encryption.rs, keygen.rs and setup.rs; `Serde.v`: the derives and serde_utils.rs) |
| `Macros.v` | macros.rs |
| `Parallel.v` | the same functions built with the default feature `parallel`: relations over all thread schedules |
| `ArkGroth16.v` | transcription of the parts of ark-groth16 0.4 that /repo calls (parameter generation, prover) |
| `Radix2.v` | transcription of the evaluation domains of ark-poly 0.4 and the constants of the BLS12-381 scalar field (used for C83) |
| `Protocol.v` | call sequences of src/tests.rs for any number of ciphertexts and parties |
| `Spec.v`, `KeySpec.v`, `Groth16Spec.v`, `SoundSpec.v`, `PrivacySpec.v`, `PrivacyDkgSpec.v`, `PrivacyAggSpec.v`, `SoundAdaptSpec.v`, `SoundDkgSpec.v`, `NonmalSpec.v`, `CcaSpec.v`, `RccaSpec.v`, `RccaDkgSpec.v`, `RushSpec.v`, `InsiderSpec.v`, `LateSpec.v`, `TallySpec.v`, `BallotSpec.v`, `IndepSpec.v`, `MixSpec.v` | the independent specification vocabulary used in statements |
| `Prop*.v` | the property theorems `C##_...` with concrete cases beside them |
| `*Facts.v`, `RoundTrip.v`, `PairingPowers.v`, `CircuitSat.v`, `SchwartzZippel.v`, `ArkCoset.v` (with the coset form of the prover), `CosetGame.v`, `Sound*.v`, `Privacy*.v`, `Nonmal*.v`, `Cca*.v`, `Rcca*.v`, `Rush.v`, `Insider.v`, `Ballot.v`, `BallotCount.v`, `Indep.v`, `Mix.v` | proofs |
| `Assumptions.v` | generated: `Print Assumptions` for every theorem of MANIFEST.json |

Where each property is proved: C01-C07, C44 `PropUtils`; C08-C11, C32 `PropKeys` (C08 continued in `PropValidate`); C12-C18, C24, C43 `PropEnc`; C19-C23 `PropVerify`;
C25-C31, C42 `PropProto` (C31 continued in `PropReencLeak`); C33-C36, C39 `PropGroth16` (cases in `PropGroth16Cases`); C37-C38 `PropCircuit`; C40 `PropHash`; C41 `PropSerde`;
C45 `PropParallel`; C46 `PropCommit`; C47-C49 `PropMalleable`; C50-C52 `PropRobust`; C53-C55 `PropGroth16More` (C55 continued in `PropVkFunctions`); C56-C58 `PropRandom` (C57 continued in `PropSnarkRandom`);
C59-C61 `PropSound`, `PropSoundCases`; C62-C63 `PropZK`; C64 `PropPrivacy`; C65 `PropMacros`; C66 `PropPrivacyMany`; C67 `PropPrivacyDkg`; C68 `PropSoundAdapt`; C69 `PropSoundDkg`; C70 `PropReencBind`; C71 `PropRogue`; C72 `PropPrivacyAgg`; C73 `PropNonmal`; C74 `PropNonmalDkg`; C75 `PropWrongValues`; C76 `PropSoundKnown`; C77 `PropCca`; C78 `PropRcca`; C79 `PropReencExact`; C80 `PropRccaDkg`; C81 `PropWide`; C82 `PropSpyShare`; C83 `PropBls`; C84 `PropRush`; C85 `PropInsider`; C86 `PropLate`; C87 `PropTally`; C88 `PropBallot`, `PropBallotCopy`; C89 `PropIndep`; C90 `PropReceipt`; C91 `PropMix`.

## What is modelled and what is not

| /repo/src | modelled | not modelled |
|---|---|---|
| utils.rs | all functions: `chunks_count`, `decompose`, `compose`, `WindowTable`, `multiply_field_elems_with_same_group_elem`, the three try-and-increment functions | the loop counter of try-and-increment is bounded by explicit fuel; its u64 wrap-around after 2^64 attempts is not reached |
| commitment.rs | all | |
| setup.rs | all | |
| keygen.rs | all structs and functions, both prepared conversions, `validate`, tables | `Zeroize`/`Drop` of secrets (no memory model) |
| encryption.rs | all, including the macro-generated methods of `Ciphertext` | |
| saver_groth16.rs | all; `create_proof`, `generate_srs` call a backend that is either an arbitrary one satisfying a stated contract or the transcription `ArkGroth16.v` | `verify_qap_proof`'s error when `final_exponentiation` returns `None` (only for a zero Miller output, impossible for group elements) |
| circuit.rs | all, including the boolean gadgets it allocates and the two synthesis modes | namespaces, the matrix inlining of ark-relations (outlining is transparent) |
| serde_utils.rs | `AsCanonical` and derived field layout over an abstract self-describing value tree | concrete text formats (JSON), error message texts, `ArkSerializationError` |
| error.rs | all variants with their payloads | |
| macros.rs | `concat_slices!` (inlined as list append), `join!`/`unnest_tuple!` | `pairs!`, `owned_pairs!`, `impl_*iter!`: refer to modules that do not exist in this crate (`$crate::pairs`, `$crate::aliases`), unused |
| tests.rs, `#[cfg(test)]` | their call sequences, in `Protocol.v` and the examples | |

Simplifications, all stated again at the definitions:

* `Result` is data, a panic is the explicit outcome `Panic`. Indexing, `assert_eq!`, slicing, division by zero and, in the
  debug profile, arithmetic overflow panic. Every function that contains overflow-checked arithmetic takes the build profile.
* `as u8`/`as u16` casts are `mod 2^8`/`mod 2^16`, shifts follow Rust (amount check in debug, masked in release).
* Scalars are integers in `[0,p)`; `into_bigint` returns that integer; `mul_bigint` is double-and-add on the integer
  (`Pos.iter_op`), so the fact that exponents may be reduced mod p is *proved*, from the group exponent.
* Affine/projective representations, `normalize_batch`, `into_affine` are the identity (same group element). Group elements are
  elements of the prime-order subgroups; curve points outside the subgroup are not representable.
* `msm_bigint(bases, scalars)` truncates to the shorter list (ark-ec 0.4 `VariableBaseMSM::msm_bigint`); `multi_pairing` panics on
  length mismatch (`zip_eq` in ark-ec 0.4). Miller loop and final exponentiation are one bilinear map; prepared points are opaque.
* An RNG is an arbitrary state machine producing scalars; theorems hold for every such machine. Counting statements
  (C59-C64, C66-C69, C72-C74, C76-C78, C80, C83-C89, C91, parts of C31) replay explicit tapes of scalars.
* FFT evaluation domains of ark-poly are an arbitrary function from a size to a list of that many or more distinct scalars; quotients and
  interpolations are computed by explicit polynomial arithmetic instead of FFTs (same polynomials).
  C83 instantiates them with the radix-2 domains of ark-poly over the BLS12-381 scalar field (`Radix2.v`).
* Thread schedules: any interleaving of starting and finishing items (`Parallel.v`), any order of reduction.
* C59-C61 quantify over provers that output fixed linear combinations of everything published (algebraic provers with fixed
  coefficients); C68, C69, C73, C74, C76 over provers whose coefficients depend on adaptive tests; C64, C66, C67, C72, C91 over observers that adaptively test products of pairings (generic observers); C77 over attackers that in addition submit linear combinations to a decryption service; C78 and C80 over attackers that in addition choose the messages during the attack; C84 over coalitions that in addition fix their contributions after adaptive tests of the SRS and of the honest contribution; C85 over coalitions that in addition see the honest party's decryption shares; C86 over coalitions that do both; C87-C89 over the same coalitions when they cast ballots in the end. These restrictions are in the statements.

## Plan per property

| id | modelled | proof |
|---|---|---|
| C01-C04 | `decompose`, `compose`, `chunks_count`, byte conversion | induction on digit lists; radix lemmas; witnesses for the refuted part |
| C05-C07 | `ChunkedCommitment` | MSM = dot product, Horner, witness field for the refuted part |
| C08-C11 | `keygen`, `FkeygenPartial`, `combineEKs`, `genP1share`, `combineP1share`, `keygenFinal` | induction over parties; permutation invariance; exact panic conditions |
| C12-C18 | encrypt/decrypt, discrete-log loops, pairing powers | loop characterisation (first match), bilinearity, uniqueness of discrete logs below the order |
| C19-C24 | verification, batch verification, error behaviour | bilinearity + non-degeneracy; polynomial root bound over Z_p for batch soundness |
| C25-C27 | `add_cts`, decryption of sums | induction over summands; witness for 16-bit chunks |
| C28-C32 | re-encryption, rogue key, mask reuse | induction over parties; explicit attacker programs for the refuted claims |
| C33-C36 | `saver_groth16` | pairing equation equivalence |
| C37-C38 | `BitsizeCheckCircuit` as generated R1CS | satisfiability iff, counting |
| C39 | `setup_for_groth16`, `encrypt_with_proof` | composition of the above with the Groth16 contract |
| C40 | try-and-increment | fuel-indexed loop, first success, injectivity of the byte encodings |
| C41 | canonical codec of the structs | codec combinators |
| C42 | whole pipeline | composition |
| C43 | shape errors and panics of decryption | case analysis |
| C44 | window tables | digits of the scalar |
| C45 | rayon `collect`/`sum` as arbitrary schedules (`Parallel.v`) | invariant over partial result vectors; permutation/split-tree induction |
| C46 | `ChunkedCommitment` as a Pedersen commitment | group algebra, inverses mod p |
| C47 | two keygen runs with one encryption key; decryption of arbitrary ciphertexts | both decryptions characterised by `opens_to` with the same secrets |
| C48 | ciphertext = injective function of (chunks, randomness) | group algebra |
| C49 | scripts `rerandomize`, `shift_by` (encrypt then `add_cts`) on accepted ciphertexts | additivity of the defect and of openings |
| C50 | arbitrary keys of consistent lengths | linearity of the defect in the message and randomness |
| C51 | `dkg_with_shares` with one wrong share | C50 counterexample plus C28 |
| C52 | `reencrypt` with one shifted share | openings are additive |
| C53 | `verify_proof` on rescaled / shifted proofs | bilinearity |
| C54 | script `shift_with_proof` (encrypt, `add_cts`, adjust C) on arbitrary pairs | the pairing product changes by the pairing of the shift only |
| C55 | vk-based wrappers incl. `pairing_powers_given_groth16_vk` | from C15 and C39 |
| C56 | `encrypt`, `decrypt`, `keygen` at unsupported sizes | case analysis, C13 |
| C57 | generator as an arbitrary state machine; `draws`, `after` | induction on the number of draws, replay of the recorded tape; generators from two recorded tapes of group elements; the SNARK functions likewise (`PropSnarkRandom`), with the loop that draws the evaluation point |
| C58 | two encryptions with one randomness | group algebra |
| C59-C61 | cheating provers as fixed linear combinations of all published elements (`SoundSpec.v`); setup runs as tapes of 3n+7 scalars | acceptance = zero of two polynomials in the tape; identically zero implies known encryption with b-bit chunks (coefficient comparison by successive evaluation, then QAP => R1CS => range); otherwise Schwartz-Zippel count |
| C62 | `encrypt_with_proof` on replayed scalars; simulated proof (`PropZK.v`) | A and B are affine in the prover's scalars with slope delta; C is determined by the pairing equation |
| C63 | `verify_proof` with known setup secrets | pairing equation solved for C |
| C64 | `setup_for_groth16` then `encrypt_with_proof` on one tape of coins, with a generic observer of all published elements (`PrivacySpec.v`) | every question is a polynomial in the coins; whether it vanishes identically does not involve the message, so off the zeros of the non-zero ones (Schwartz-Zippel) both messages get the same answers |
| C65 | `join!`, `unnest_tuple!` as running tasks under any scheduler (`Macros.v`) | invariant: every task belongs to its argument; progress by counting busy tasks |
| C66 | the same with a list of messages (`experiment_many`) | ciphertexts on fixed coins are fixed combinations of the published elements (C59), so each observer of the whole table is an observer of one ciphertext; C64 for each position, then a hybrid over positions |
| C67 | the distributed key generation followed by encryptions (`PrivacyDkgSpec`), all tapes but one fixed | every published element is a fixed combination of the elements of the centrally generated key whose secret is the sum (the other parties' secrets are constants), so an observer of the distributed run is an observer of C66; the coins correspond one to one |
| C68 | the prover of C59 becomes a decision tree of pairing-product tests (`SoundAdaptSpec`), with strategies at its leaves | each test is a polynomial in the tape: either zero on all tapes or zero on few; induction over the tree with the counting bound of C59-C61 at the leaves |
| C69 | the execution of C67 without messages; the prover of C68 sees the elements of that execution; the extractor adds the coefficients at the honest party's Y and share to those of the final key (`SoundDkgSpec`) | every element the coalition sees is a fixed linear combination of the published elements of the central key with the same secrets, with known coefficients of Y and P_1; so a coalition prover is a prover of C68 against the central setup, and its bad coins inject, times all (n+1)-tuples, into bad central tapes |
| C70 | `re_encrypt_share`, the re-encryption script of `Protocol`, `shift_with_proof` of C54 (public values only) | the share function ignores the chunks; a re-randomized pair is accepted (C54), encrypts the same message (C25), so C28 delivers the message |
| C71 | the rogue contribution of C32 with the attacker's own coins; `moved`: redistribution with the commitment adjusted by t_1 - t_2 | exact acceptance condition (C20), proof check sees the sum only (C35), decryption exact (C14) |
| C72 | the execution of C67 followed by an interactive client (`PrivacyAggSpec`): tests and requests `serve` = `add_cts` over a selection, then every party's `re_encrypt_share` | the shares for a sum are a fixed combination of the published elements and of the sum itself (C30/C11), so a client is an observer of C67 once the requested sums are given; the counting bound of C67 applies to pairs of message lists with equal requested sums; delivery from C25 |
| C73 | `setup_for_groth16`, then `encrypt_all` of k messages on the same tape, then a generic prover that sees all of it (`SoundAdaptSpec`, `PrivacySpec.table_g1/2`) and is checked by `verify_commitment_and_proof`; `NonmalSpec.rerandomized` | the table is a fixed combination of the published elements, so C68's bound gives an encryption of the chunks of the *combined* strategy; fixing all coins but those of the setup and of one ciphertext, acceptance is two polynomial equations in 3n+10 coins whose identical vanishing forces the coefficient of that ciphertext's commitment to be 0 or 1 with everything else zero and A a non-zero multiple of its A (`NonmalCore`, `NonmalAlg`); two ciphertexts cannot both be used because A would be a multiple of both (Schwartz-Zippel over each pair) |
| C74 | `PrivacyDkgSpec.dkg_execution` with messages, then a generic prover that sees `dkg_g1`/`dkg_g2` of the run (contributions, P_1 shares, key, SRS, ciphertexts) | what the coalition sees is a fixed linear combination of what a prover of C73 sees in a central execution with shifted secrets (`NonmalDkg.dkg_as_central`); the coins correspond injectively, so the bound of C73 carries over with the same fraction; copying strategies and known-coins cheats by padding those of C73 |
| C75 | `ArkCoset.v` transcribes witness_map_from_matrices over the coset; `create_proof` on `values_circuit` (any values), `verify_proof` | coset evaluation of a polynomial divisible by the vanishing polynomial equals division; the exact acceptance condition of a proof made from arbitrary values is a polynomial equation of degree at most 2N-2 in the evaluation point that is not identically satisfied when the values are wrong (`bad_poly`); debug build: is_satisfied is false |
| C76 | `SoundKnownSpec.known_tape`: setups whose rho, s, v are given beforehand; provers as in C68 quantified after them | the identities behind C59/C60 hold for every fixed rho, s, v (`SoundAlg`, `SoundFacts`), so Schwartz-Zippel is applied to the remaining n+6 coins (`SoundKnown.v`); the attacks with the other secrets are explicit strategies |
| C77 | `CcaSpec.attacker`/`attack`/`service`: interactive attackers whose moves are tests and submissions, the service composed of the modelled verification and decryption; executions on replayed tapes | every answer can be predicted from the coefficients of the submission unless it is accepted without being fresh or a copy (C73, counted once per submission), so the attacker becomes an observer of C66 or a prover of C73 (`Cca.v`, `CcaCount.v`); the necessity theorems are explicit attackers |
| C78 | `RccaSpec.adversary`/`duel`: attackers that interleave tests, submissions and offers of pairs of messages; the table grows by the modelled encryption | every test has the same answer on almost all coins, in both worlds (`RccaTest.test_constant`: a test is a polynomial in the coins, zero or small), so there is one path of answers followed on all but few coins (`RccaCount.follow`, induction over the attacker); counted with C66 and C73 at each move |
| C79 | re_encrypt_share, combine_ct_with_w, both decryptions of chunks on arbitrary inputs | every outcome characterized against `least_multiple` (smallest multiple in range), by induction over the list of chunks |
| C80 | `RccaDkgSpec.dkg_setup`/`decrypt_together`/`service_by_parties`/`dkg_duel`: the game of C78 played by all parties but one, with the service provided by the parties through re-encryption to a destination | what the coalition sees is a linear combination of what an attacker of C78 sees in a central execution with shifted secrets (as in C74), and decryption by the parties together gives what decryption with the sum of their secrets gives, on any input (`RccaDkg.v`); the coins correspond injectively, so the bounds carry over; the tampered share is C52's |
| C81 | decryption, pairing_powers and commitment_key with the model's `one_shl_u32`, `one_shl_i32`, `sub_i32` for every chunk size and both profiles | unfolding of the integer operations; the rest is C14/C15/C79's facts about the searches and tables |
| C82 | `dkg_with_shares` (C51) with the share `spying_share`, made of the other shares and X_0 | the commitment of a ciphertext formula minus k c_0 is the weighted sum; false matches: two tapes of the honest party that agree off one coin and both match are equal, so the tapes inject into 2n coins |
| C83 | the library's radix-2 domains (`Radix2.v`: order of the root of unity from 31 squarings giving -1), the coset prover (`CosetGame.v`: honest encryption gives the same proofs as `ArkGroth16.v` for every key, so the games of C78 and C80 coincide by induction on the attacker), the constants of BLS12-381 | instantiation of C38, C39, C68, C77, C78, C80; arithmetic of the bounds |
| C84 | a plan of adaptive tests of the SRS and the honest contribution that settles the other parties' tapes and the attack, followed by the game of C80 on the same coins (`RushSpec.v`) | each test is, seen from the honest party's key generation alone (C67's correspondence with the central setup), a polynomial in the coins, so it is always one or rarely one; off those zeros the decision is fixed and C80 applies; induction on the plan |
| C85 | the game of C80 in which an opened submission is followed by the honest party's `re_encrypt_share` for a destination chosen by the coalition, whose output joins the table (`InsiderSpec.v`) | by C80's extraction an accepted submission that is opened is an encryption of chunks with a known r (a copy would be protected), so the share is the combination -r X_j + rho D of what was on the table before (`Insider.v`); induction over the attack replaces shares by such rows, and C80's forgery bound pays for each submission once; counts are decidable, so no excluded middle is needed for results of any type |
| C86 | the first moves of C84 followed by the game of C85 with what was decided (`LateSpec.v`) | the coins on which the decision depends on more than the generic one are counted as in C84 (each look a polynomial in the coins of setup and honest party); on the others the decision is a fixed one and C85 applies to it |
| C87 | a coalition of C84-C86 whose result is a list of ballots (`TallySpec.v`); sum with add_cts and joint decryption with another chunk size | each ballot is a final submission of the same attack: by C85 it is rarely accepted without being an encryption of b-bit chunks or a copy of a client's ciphertext, and copies are encryptions too; a union over the ballots, then the sums of C25/C42 with bounds on the chunks; the copying strategy of C74 for the last theorem |
| C88 | an election (`BallotSpec.v`): the coalition of C84-C86 casts ballots at the end, the accepted ones and those of the clients are summed with add_cts, the honest party's share of the sum goes to a destination of the coalition's choice; two worlds with the same sum of votes | the share of the sum is computed from the table (`Ballot.v`): the honest party's secret cancels against the sum of the plaintexts, which is the same in both worlds for the clients and, for the coalition's ballots, is the one extracted from its strategies (C85, union over the ballots); so the election is an attack of C80 with q + v submissions and t + u tests (`BallotCount.v`). That copies must be excluded is C87's last theorem and `PropBallotCopy.v`: the copy of a ballot, made by coefficients that do not depend on the votes (C74), is in the sum, and one test of the share against the key, the ciphertexts and a guess of a chunk of the sum tells the worlds apart (the share for the base point minus its mask, plus the coalition's part of the secret, opens the sum) |
| C89 | the ballots of the coalition of C84-C86 (`IndepSpec.v`): all of them, accepted or not, compared one by one in two worlds in which the clients vote differently | after the simulation of C85 the coalition submits its ballots to the service of C80 (`Indep.v`: v more submissions) and remembers the answers, with its formal strategies; C80 makes all of that the same in both worlds. An accepted ballot encrypts the chunks extracted from its strategy or copies a client (C85's forgery bound, union over the ballots), so the service's answer is exact: refused, these chunks, or an offered message; in the last case either both worlds' ballots encrypt the same extracted chunks or one is a copy. The copying strategy of C74 shows that the exception occurs |
| C90 | the receipt check (`receipt` in `PropReceipt.v`): encrypt run again with the replaying generator on the one scalar, compared with the whole ciphertext | C57's shape of encrypt gives the check for returned scalars; C12 and C19 apply to the check's own run, whoever made the ciphertext; C48 gives uniqueness of chunks and scalar, C01 of the message; for the re-randomized ciphertext the sum with an encryption of zeros is the encryption with the sum of the scalars (C25) |
| C91 | setup, encryptions with proofs, and a mixer that adds an encryption of zeros to the chosen ciphertexts (`MixSpec.v`: `mix`, `experiment_mix`), shown to a generic observer with everything public. The mixer is not code of the repository: it composes encrypt_decomposed_message and add_cts as the comments in MixSpec.v say | a re-randomized ciphertext is the encryption of the same chunks with the sum of the scalars (C25), so for a fixed tape of the clients the coins of the mixer correspond one to one to those of fresh encryptions (`Mix.v`: `weave`, `unweave`, `count_bij`); an observer of fresh encryptions that ignores the last m proofs simulates the observer (`lift`); C66's hybrid bound over the last m messages then changes the order. One mixed ciphertext is the formula of encrypt with the sum of the scalars (`mix_one`), so two of the same contents correspond by a shift of the mixer's scalar; C90's uniqueness keeps different contents apart. Delivery by C90 and C12, C19; non-emptiness from the setup on good coins |

Not expressible in this model: computational hardness against arbitrary machines (security beyond generic/algebraic adversaries),
timing side channels, zeroization of memory. They are not claimed.
