-Q theories Verif
theories/CMonad.v
theories/Model_Params.v
theories/Model_AvxAsm.v
theories/Model_AvxCode.v
theories/Model_AvxIntrin.v
theories/Model_AvxC.v
theories/Model_AvxPolyvec.v
theories/Model_Reduce.v
theories/Model_Verify.v
theories/Model_NTT.v
theories/Model_CBD.v
theories/Model_Poly.v
theories/Model_Polyvec.v
theories/Model_Fips202.v
theories/Model_Symmetric.v
theories/Model_Indcpa.v
theories/Model_Randombytes.v
theories/Model_Kem.v
theories/Spec_FIPS202.v
theories/Spec_FIPS203.v
theories/Spec_Noise.v
theories/WP.v
theories/Modq.v
theories/Proof_Reduce.v
theories/Proof_Base.v
theories/Proof_Verify.v
theories/Sums.v
theories/Proof_NTT.v
theories/Proof_NTTSpec.v
theories/Proof_RingMul.v
theories/Proof_Poly.v
theories/Proof_Polyvec.v
theories/Proof_Bits.v
theories/Levels.v
theories/Proof_Compress.v
theories/Proof_Codec.v
theories/Proof_Codec2.v
theories/Proof_Codec3.v
theories/Proof_PolyvecCodec.v
theories/Proof_CBD.v
theories/Proof_Keccak.v
theories/Proof_Sponge.v
theories/Proof_Shake.v
theories/Proof_Hash.v
theories/Proof_Symmetric.v
theories/Proof_Rej.v
theories/Proof_GenMatrix.v
theories/Proof_Indcpa.v
theories/Proof_Keypair.v
theories/Proof_Encrypt.v
theories/Proof_Fuel.v
theories/Proof_Kem.v
theories/Proof_Correct.v
theories/Proof_Api.v
theories/Proof_Nonce.v
theories/Proof_Random.v
theories/Proof_AvxSym.v
theories/Proof_AvxNTT.v
theories/Proof_AvxPack.v
theories/Proof_AvxBits.v
theories/Proof_AvxVec.v
theories/Proof_AvxCompress.v
theories/Proof_AvxDecompress.v
theories/Proof_AvxMisc.v
theories/Proof_AvxPolyvec.v
theories/Model_AvxKeccak.v
theories/Proof_AvxKeccak.v
theories/Model_AvxFips202x4.v
theories/Proof_AvxFips202x4.v
theories/Proof_AvxShake4.v
theories/Model_AvxRej.v
theories/Proof_AvxRej.v
theories/Proof_AvxRejLoop.v
theories/Model_AvxIndcpa.v
theories/Proof_AvxGenMatrix.v
theories/Proof_AvxNoise.v
theories/Proof_AvxKeypair.v
theories/Proof_AvxEncrypt.v
theories/Model_AvxKem.v
theories/Proof_AvxKem.v
theories/Proof_AvxFuel.v
theories/Proof_AvxNonce.v
theories/Vocab.v
theories/Vocab_Code.v
theories/Vocab_Four.v
theories/Proof_Vocab.v
theories/Proof_PropHash.v
theories/Proof_PropPoly.v
theories/Model_NTTLoops.v
theories/Proof_NTTLoops.v
theories/Proof_PropAvx.v
theories/Proof_PropAvxC.v
theories/Proof_PropSample.v
theories/Proof_PropUtil.v
theories/Model_RandomWin.v
theories/Vocab_Win.v
theories/Proof_RandomWin.v
theories/Proof_PropKem.v
theories/Run_Kem.v
theories/Proof_Demo.v
theories/Cases.v
theories/Proof_Cases.v
theories/Proof_PropAvxHash.v
theories/Proof_PropAvxSample.v
theories/Model_AvxRejBmi.v
theories/Proof_AvxRejBmi.v
theories/Proof_PropAvxBmi.v
theories/Prop_AvxBmi.v
theories/Vocab_Avx.v
theories/Proof_AvxApi.v
theories/Proof_PropAvxKem.v
theories/Proof_AvxCases.v
theories/Vocab_Bind.v
theories/Proof_Bind.v
theories/Prop_Hash.v
theories/Prop_Poly.v
theories/Prop_Sample.v
theories/Prop_Util.v
theories/Prop_Kem.v
theories/Prop_AvxAsm.v
theories/Prop_AvxC.v
theories/Prop_AvxHash.v
theories/Prop_AvxSample.v
theories/Prop_AvxKem.v
theories/Prop_AvxSame.v
theories/Prop_Bind.v
theories/Spec_DRBG.v
theories/Model_Rng.v
theories/Vocab_Rng.v
theories/Proof_Rng.v
theories/Proof_Expander.v
theories/Proof_PropRng.v
theories/Prop_Rng.v
theories/Model_Tests.v
theories/Vocab_Tests.v
theories/Proof_Tests.v
theories/Proof_TestsTotal.v
theories/Proof_PropTests.v
theories/Prop_Tests.v
theories/Model_Kat.v
theories/Vocab_Kat.v
theories/Proof_KatRead.v
theories/Proof_Kat.v
theories/Proof_PropKat.v
theories/Prop_Kat.v
theories/Proof_Sim.v
theories/Vocab_Buffers.v
theories/Model_Shared.v
theories/Proof_Buffers.v
theories/Proof_Shared.v
theories/Proof_PropBuffers.v
theories/Prop_Buffers.v
theories/Model_Speed.v
theories/Vocab_Speed.v
theories/Proof_Speed.v
theories/Proof_SpeedParts.v
theories/Proof_SpeedMain.v
theories/Proof_PropSpeed.v
theories/Prop_Speed.v
theories/Vocab_Dist.v
theories/Proof_Dist.v
theories/Proof_Unbiased.v
theories/Prop_Dist.v
theories/Vocab_Overlap.v
theories/Model_SharedKey.v
theories/Proof_SharedKey.v
theories/Proof_PropSharedKey.v
theories/Prop_SharedKey.v
theories/Spec_Failure.v
theories/Vocab_Failure.v
theories/Proof_FailSums.v
theories/Proof_FailBound.v
theories/Proof_FailNum.v
theories/Proof_Failure.v
theories/Proof_FailCount.v
theories/Proof_PropFailure.v
theories/Prop_Failure.v
theories/Vocab_Blocks.v
theories/Proof_Blocks.v
theories/Proof_PropBlocks.v
theories/Prop_Blocks.v
theories/Proof_AvxSim.v
theories/Proof_AvxBuffers.v
theories/Proof_PropAvxBuffers.v
theories/Prop_AvxBuffers.v
theories/Model_AvxShared.v
theories/Proof_AvxShared.v
theories/Proof_PropAvxShared.v
theories/Prop_AvxShared.v
theories/Model_Fips202Width.v
theories/Proof_Width.v
theories/Proof_PropWidth.v
theories/Prop_Width.v
theories/Model_RejWidth.v
theories/Proof_RejWidth.v
theories/Proof_PropRejWidth.v
theories/Prop_RejWidth.v
theories/Spec_Games.v
theories/Proof_Games.v
theories/Proof_PropHiding.v
theories/Prop_Hiding.v
theories/Model_AvxWidth.v
theories/Proof_AvxWidth.v
theories/Prop_AvxWidth.v
theories/Vocab_Accept.v
theories/Proof_Accept.v
theories/Prop_Accept.v
theories/Spec_Checks.v
theories/Proof_Checks.v
theories/Prop_Checks.v
theories/Model_AvxArith.v
theories/Vocab_Arith.v
theories/Proof_Arith.v
theories/Prop_Arith.v
theories/Vocab_Draw.v
theories/Proof_Draw.v
theories/Prop_Draw.v
theories/Model_Names.v
theories/Vocab_Names.v
theories/Proof_Names.v
theories/Prop_Names.v
theories/Model_AvxSnP.v
theories/Proof_SnPBase.v
theories/Proof_SnPBytes.v
theories/Proof_SnPLanes.v
theories/Vocab_SnP.v
theories/Proof_SnPPermute.v
theories/Proof_PropSnP.v
theories/Prop_SnP.v
theories/Proof_Ranges.v
theories/Proof_AvxRanges.v
theories/Proof_RangeSweep.v
theories/Vocab_Ranges.v
theories/Proof_PropRanges.v
theories/Prop_Ranges.v
theories/Proof_TobytesRange.v
theories/Proof_PropTobytes.v
theories/Prop_Tobytes.v
