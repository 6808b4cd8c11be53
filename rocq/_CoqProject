-Q theories Verif

theories/Prime.v
theories/Base.v
theories/Scalar.v
theories/Env.v
theories/Spec.v
theories/Gray.v
theories/Core.v
theories/Params.v
theories/Statement.v
theories/Witness.v
theories/Transcript.v
theories/Prover.v
theories/Verifier.v
theories/Codec.v
theories/SpecPlain.v
theories/GrayFacts.v
theories/Algebra.v
theories/RingSum.v
theories/CoreFacts.v
theories/CoreProver.v
theories/PlainFacts.v
theories/ProverFacts.v
theories/VerifierFacts.v
theories/Completeness.v
theories/Verdict.v
theories/Search.v
theories/Blame.v
theories/Extractor.v
theories/MatrixSound.v
theories/SpecPlainSound.v
theories/Soundness.v
theories/SpecPlainZK.v
theories/ZK.v
theories/CodecCore.v
theories/CodecFacts.v
theories/ProverApi.v
theories/Labels.v
theories/Binding.v
theories/VerifierApi.v
theories/ToyEnv.v
theories/Examples.v
theories/SpecGray.v
theories/GrayRun.v
theories/Properties_Params.v
theories/Properties_Inputs.v
theories/Properties_Prover.v
theories/Properties_Verifier.v
theories/Properties_Soundness.v
theories/Properties_Blame.v
theories/Properties_Codec.v
theories/Properties_Binding.v
theories/ParParams.v
theories/ParStatement.v
theories/ParWitness.v
theories/ParTranscript.v
theories/ParProver.v
theories/ParVerifier.v
theories/ParCodec.v
theories/ParSpec.v
theories/ParSpecSound.v
theories/ParSpecZK.v
theories/ParFacts.v
theories/ParProverFacts.v
theories/ParVerifierFacts.v
theories/ParCompleteness.v
theories/ParVerdict.v
theories/ParBlame.v
theories/ParCodecFacts.v
theories/ParProverApi.v
theories/ParSoundness.v
theories/ParZK.v
theories/ParBinding.v
theories/ParVerifierApi.v
theories/ParExamples.v
theories/Properties_ParParams.v
theories/Properties_ParInputs.v
theories/Properties_ParProver.v
theories/Properties_ParVerifier.v
theories/Properties_ParSoundness.v
theories/Properties_ParBlame.v
theories/Properties_ParCodec.v
theories/Properties_ParBinding.v
theories/Properties_Domains.v
theories/SpecVerdict.v
theories/SpecTamper.v
theories/BatchVerdict.v
theories/Calls.v
theories/Lone.v
theories/ExamplesRun.v
theories/Properties_Tamper.v
theories/Properties_Verdict.v
theories/Properties_Cases.v
theories/SpecPositions.v
theories/PositionFacts.v
theories/SpecUsage.v
theories/Properties_Usage.v
theories/ParSpecVerdict.v
theories/ParSpecTamper.v
theories/ParBatchVerdict.v
theories/ParCalls.v
theories/ParLone.v
theories/ParExamplesRun.v
theories/Properties_ParTamper.v
theories/Properties_ParVerdict.v
theories/Properties_ParCases.v
theories/ParSpecUsage.v
theories/Properties_ParUsage.v
theories/Properties_Cross.v
theories/OsRng.v
theories/ProverOs.v
theories/Properties_Os.v
theories/ParProverOs.v
theories/Properties_ParOs.v
theories/Serde.v
theories/SerdeFacts.v
theories/SerdeProof.v
theories/Properties_Serde.v
theories/ParSerdeProof.v
theories/Properties_ParSerde.v
theories/Properties_CrossSerde.v
theories/Properties_Ledger.v
theories/Properties_ParLedger.v
theories/Properties_Generators.v
theories/Equality.v
theories/Properties_Equality.v
theories/ParEquality.v
theories/Properties_ParEquality.v
theories/LeakCore.v
theories/LeakFacts.v
theories/Leak.v
theories/LeakRun.v
theories/Properties_Leakage.v
theories/ParLeak.v
theories/ParLeakRun.v
theories/Properties_ParLeakage.v
theories/SpecKeyless.v
theories/Keyless.v
theories/Properties_Keyless.v
theories/ParSpecKeyless.v
theories/ParKeyless.v
theories/Properties_ParKeyless.v
theories/Properties_Replay.v
theories/Properties_ParReplay.v
theories/SpecUniform.v
theories/Uniform.v
theories/Properties_Uniform.v
theories/Properties_ParUniform.v
theories/DecodeCost.v
theories/Properties_DecodeCost.v
theories/Properties_ParDecodeCost.v
theories/SoundnessError.v
theories/Properties_Forger.v
theories/Properties_ParForger.v
theories/CountWeights.v
theories/Properties_Weights.v
theories/Properties_ParWeights.v
theories/Properties_Nonces.v
theories/Properties_ParNonces.v
theories/VerifyCost.v
theories/Properties_VerifyCost.v
theories/ProverCost.v
theories/Properties_ProveCost.v
theories/Properties_ParProveCost.v
theories/Properties_ParVerifyCost.v
theories/Oracle.v
theories/Properties_Oracle.v
theories/Properties_ParOracle.v
theories/Fresh.v
theories/Properties_Fresh.v
theories/Properties_ParFresh.v
theories/Properties_Grind.v
theories/Properties_ParGrind.v
theories/Searcher.v
theories/Properties_Search.v
theories/Properties_ParSearch.v
theories/Residue.v
theories/ResidueFacts.v
theories/Properties_Residue.v
theories/ParResidue.v
theories/ParResidueFacts.v
theories/Properties_ParResidue.v
theories/CrashResult.v
theories/CrashOs.v
theories/Display.v
theories/SpecErrors.v
theories/Properties_Errors.v
theories/ParSpecErrors.v
theories/Properties_ParErrors.v
theories/Properties_Crash.v
theories/ParCrashOs.v
theories/Properties_ParCrash.v
theories/LazyOracle.v
theories/SpecCollide.v
theories/Properties_Collide.v
theories/ParSpecCollide.v
theories/Properties_ParCollide.v
theories/Repeats.v
theories/SpecSecond.v
theories/Properties_Second.v
theories/ParSpecSecond.v
theories/Properties_ParSecond.v
