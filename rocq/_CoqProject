-Q theories Verif
theories/ECGroup.v
theories/NumTheory.v
theories/Primes.v
theories/Spec.v
theories/FieldP.v
theories/CurveZ.v
theories/CurveGroup.v
theories/Jac.v
theories/FastMul.v
theories/GMult.v
theories/Endo.v
theories/EndoP.v
theories/JacP.v
theories/Order.v
theories/Lambda.v
theories/Go.v
theories/Wire.v
theories/SpecWire.v
theories/WireProofs.v
theories/PropWire.v
theories/Big.v
theories/Crypto.v
theories/Gspfs.v
theories/Equivalence.v
theories/Consistency.v
theories/Disjunctive.v
theories/Abc.v
theories/Range.v
theories/SpecCodec.v
theories/CodecProofs.v
theories/TruncProofs.v
theories/PropCodec.v
theories/SpecZk.v
theories/FieldN.v
theories/Sha256.v
theories/Zksigma.v
theories/ZkBase.v
theories/PointProofs.v
theories/PropPoint.v
theories/GspfsProofs.v
theories/PropGspfs.v
theories/EqConsProofs.v
theories/PropEqCons.v
theories/DisjProofs.v
theories/PropDisj.v
theories/AbcProofs.v
theories/PropAbc.v
theories/SpecRange.v
theories/RangeProofs.v
theories/PropRange.v
theories/RangeConc.v
theories/RangeConcProofs.v
theories/PropRangeConc.v
theories/FreeList.v
theories/FreeListProofs.v
theories/PropFreeList.v
theories/Field.v
theories/SpecField.v
theories/FieldProofs.v
theories/PropField.v
theories/Koblitz.v
theories/SpecCurve.v
theories/KobProofs.v
theories/KobMul.v
theories/KobTab.v
theories/Oversized.v
theories/PropCurve.v
theories/SpecBtc.v
theories/PubKey.v
theories/PubKeyProofs.v
theories/PropPubKey.v
theories/Signature.v
theories/DerProofs.v
theories/PropDer.v
theories/SpecTotal.v
theories/TotalProofs.v
theories/EcdsaProofs.v
theories/PropEcdsa.v
theories/SpecCipher.v
theories/Ciphering.v
theories/CipherProofs.v
theories/PropCipher.v
theories/SpecVerify.v
theories/VerifyTotal.v
theories/PropTotal.v
theories/Precompute.v
theories/PrecompProofs.v
theories/PropPrecomp.v
theories/SpecLeak.v
theories/LeakProofs.v
theories/PropLeak.v
theories/PropSig.v
theories/WireProofsZk.v
theories/PropTransfer.v
theories/SpecCanon.v
theories/CanonProofs.v
theories/PropCanon.v
theories/SpecForge.v
theories/ForgeProofs.v
theories/PropForge.v
theories/SpecMeaning.v
theories/MeaningProofs.v
theories/PropMeaning.v
theories/PropOffCurve.v
theories/RandFailProofs.v
theories/PropRandFail.v
theories/SpecRfc6979.v
theories/RfcProofs.v
theories/PropRfc6979.v
theories/SpecLedger.v
theories/PropLedger.v
theories/KoblitzMem.v
theories/MemProofs.v
theories/SpecMem.v
theories/MemProofs2.v
theories/PropMem.v
theories/KoblitzConc.v
theories/SpecConc.v
theories/ConcProofs.v
theories/PropConc.v
theories/BigMem.v
theories/ApiMem.v
theories/SpecApiMem.v
theories/SpecApiCalls.v
theories/ApiMemProofs.v
theories/ApiMemProofs2.v
theories/ApiMemProofs3.v
theories/ApiMemProofs4.v
theories/ApiMemProofs5.v
theories/ApiMemProofs6.v
theories/ApiCallProofs.v
theories/PropApiMem.v
theories/FieldMem.v
theories/FieldMemProofs.v
theories/KoblitzWord.v
theories/SpecWord.v
theories/WordProofs.v
theories/WordProofs2.v
theories/PropWord.v
theories/SpecTrace.v
theories/TraceProofs.v
theories/TraceProofs2.v
theories/TraceProofs3.v
theories/TraceProofs4.v
theories/PropTrace.v
theories/Text.v
theories/SpecText.v
theories/TextProofs.v
theories/TextProofs2.v
theories/PropText.v
theories/Init.v
theories/SpecInit.v
theories/InitProofs.v
theories/PropInit.v
theories/Alloc.v
theories/AllocProofs.v
theories/PropAlloc.v
theories/SpecReuse.v
theories/ReuseProofs.v
theories/PropReuse.v
theories/Reader.v
theories/SpecReader.v
theories/ReaderProofs.v
theories/PropReader.v
theories/SpecFork.v
theories/ForkProofs.v
theories/PropFork.v
theories/Rand.v
theories/SpecRand.v
theories/RandProofs.v
theories/RandSched.v
theories/RandCount.v
theories/RandSeq.v
theories/RandTape.v
theories/RandCall.v
theories/RandMore.v
theories/PropRand.v
theories/Errors.v
theories/SpecErrors.v
theories/ErrorsProofs.v
theories/ErrorsProofs2.v
theories/ErrorsProofs3.v
theories/ErrorsProofs4.v
theories/PropErrors.v
theories/SpecSize.v
theories/SizeProofs.v
theories/SizeProofs2.v
theories/SizeProofs3.v
theories/PropSize.v
theories/SpecOracle.v
theories/OracleProofs.v
theories/OracleCount.v
theories/OracleThree.v
theories/OracleProofs2.v
theories/OracleProofs3.v
theories/PropOracle.v
theories/SpecHide.v
theories/HideProofs.v
theories/HideProofs2.v
theories/PropHide.v
theories/Reports.v
theories/SpecReports.v
theories/ReportsProofs.v
theories/PropReports.v
