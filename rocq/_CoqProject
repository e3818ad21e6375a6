-Q theories Verif
theories/Base.v
theories/Algebra.v
theories/Utils.v
theories/Setup.v
theories/Commitment.v
theories/Keygen.v
theories/Encryption.v
theories/BaseFacts.v
theories/Spec.v
theories/UtilsFacts.v
theories/Primality.v
theories/Instance.v
theories/WindowFacts.v
theories/CommitmentFacts.v
theories/KeySpec.v
theories/VecFacts.v
theories/KeygenFacts.v
theories/EncryptFacts.v
theories/DecryptFacts.v
theories/RoundTrip.v
theories/PairingPowers.v
theories/VerifyFacts.v
theories/Protocol.v
theories/ReencFacts.v
theories/DistFacts.v
theories/PropUtils.v
theories/Examples.v
theories/PropKeys.v
theories/PropEnc.v
theories/PropVerify.v
theories/PropProto.v
theories/Circuit.v
theories/CircuitFacts.v
theories/CircuitSat.v
theories/PropCircuit.v
theories/Groth16.v
theories/ArkGroth16.v
theories/PolyFacts.v
theories/Groth16Spec.v
theories/ArkFacts.v
theories/Groth16Facts.v
theories/PropGroth16.v
theories/PropGroth16Cases.v
theories/PropHash.v
theories/Serde.v
theories/SerdeFacts.v
theories/PropSerde.v
theories/Parallel.v
theories/PropParallel.v
theories/PropCommit.v
theories/PropMalleable.v
theories/PropRobust.v
theories/PropGroth16More.v
theories/PropRandom.v
theories/SchwartzZippel.v
theories/ArkCoset.v
theories/SoundCore.v
theories/SoundSpec.v
theories/SoundAlg.v
theories/SoundGame.v
theories/SoundLink.v
theories/SoundFacts.v
theories/SoundCount.v
theories/SoundHonest.v
theories/PropSound.v
theories/PropSoundCases.v
theories/PropZK.v
theories/Macros.v
theories/PropMacros.v
theories/PrivacySpec.v
theories/PrivacyAlg.v
theories/PrivacyGame.v
theories/PrivacyLink.v
theories/PrivacyCount.v
theories/PropPrivacy.v
theories/PrivacySpan.v
theories/PrivacyMany.v
theories/PropPrivacyMany.v
theories/PrivacyDkgSpec.v
theories/PrivacyDkg.v
theories/PropPrivacyDkg.v
theories/SoundAdaptSpec.v
theories/SoundAdapt.v
theories/SoundKnownSpec.v
theories/SoundKnown.v
theories/PropSoundAdapt.v
theories/SoundDkgSpec.v
theories/SoundDkg.v
theories/PropSoundDkg.v
theories/PropReencLeak.v
theories/PropReencBind.v
theories/PropRogue.v
theories/PrivacyAggSpec.v
theories/PrivacyAgg.v
theories/PropPrivacyAgg.v
theories/NonmalCore.v
theories/NonmalAlg.v
theories/NonmalSpec.v
theories/NonmalGame.v
theories/NonmalRows.v
theories/NonmalLink.v
theories/NonmalCount.v
theories/PropNonmal.v
theories/NonmalDkg.v
theories/PropNonmalDkg.v
theories/PropWrongValues.v
theories/PropSoundKnown.v
theories/CcaSpec.v
theories/Cca.v
theories/CcaCount.v
theories/PropCca.v
theories/RccaSpec.v
theories/RccaTest.v
theories/RccaCount.v
theories/PropRcca.v
theories/PropReencExact.v
theories/PropSnarkRandom.v
theories/PropVkFunctions.v
theories/PropValidate.v
theories/RccaDkgSpec.v
theories/RccaDkg.v
theories/PropRccaDkg.v
theories/PropWide.v
theories/PropSpyShare.v
theories/Radix2.v
theories/CosetGame.v
theories/PropBls.v
theories/RushSpec.v
theories/Rush.v
theories/PropRush.v
theories/InsiderSpec.v
theories/Insider.v
theories/PropInsider.v
theories/LateSpec.v
theories/PropLate.v
theories/TallySpec.v
theories/PropTally.v
theories/BallotSpec.v
theories/Ballot.v
theories/BallotCount.v
theories/PropBallot.v
theories/PropBallotCopy.v
theories/IndepSpec.v
theories/Indep.v
theories/PropIndep.v
theories/PropReceipt.v
theories/MixSpec.v
theories/Mix.v
theories/PropMix.v
theories/Assumptions.v
