{"id": "C01", "title": "VarInt round trip", "statement": "Reading with ReadVarInt what WriteVarInt wrote for v returns exactly v and consumes exactly the bytes written, leaving whatever follows in the stream untouched.", "quantifier": "every uint64 v and every byte stream that follows it", "why_tests_cant": "2^64 values times arbitrary suffixes; tests sample a few boundaries", "anchors": ["wire/common.go:ReadVarInt", "wire/common.go:WriteVarInt"]}
{"id": "C02", "title": "VarInt encodings are canonical", "statement": "If ReadVarInt accepts a stream and returns v, then the bytes it consumed are precisely the bytes WriteVarInt produces for v: no integer has two accepted encodings. On a short stream it returns an error instead of a value.", "quantifier": "every byte stream", "why_tests_cant": "ranges over all byte strings, including adversarial ones", "anchors": ["wire/common.go:ReadVarInt", "wire/common.go:WriteVarInt"]}
{"id": "C03", "title": "VarIntSerializeSize is exact", "statement": "VarIntSerializeSize(v) equals the number of bytes WriteVarInt(v) emits.", "quantifier": "every uint64 v", "why_tests_cant": "four size classes over 2^64 values; boundary errors are easy to miss", "anchors": ["wire/common.go:VarIntSerializeSize", "wire/common.go:WriteVarInt"]}
{"id": "C04", "title": "VarBytes round trip and canonicity", "statement": "ReadVarBytes after WriteVarBytes returns the same slice and consumes exactly the written bytes; conversely every accepted stream starts with the unique encoding of the returned slice, and a stream cut short inside the encoding is an error.", "quantifier": "every byte slice and every trailing stream; every accepted stream", "why_tests_cant": "all lengths and contents", "anchors": ["wire/common.go:ReadVarBytes", "wire/common.go:WriteVarBytes"]}
{"id": "C05", "title": "ReadVarBytes enforces its limit", "statement": "The doc comment promises an error when the length exceeds maxAllowed. The code ignores maxAllowed: for every limit there is a longer slice that is accepted, and a 9-byte header alone makes it ask the runtime for an unsatisfiable allocation (a crash, not an error). It crashes exactly on the streams whose canonical length prefix exceeds the largest possible allocation.", "quantifier": "every limit maxAllowed and every stream", "why_tests_cant": "a claim about all limits and all streams", "anchors": ["wire/common.go:ReadVarBytes"]}
{"id": "C06", "title": "ECPoint and BigInt serialisation round trip", "statement": "ReadECPoint(WriteECPoint p) = p for every point with non-negative coordinates, and ReadBigInt(WriteBigInt z) = z for every integer z of either sign, consuming exactly what was written.", "quantifier": "every pair of non-negative coordinates, every integer, every trailing stream", "why_tests_cant": "unbounded integers", "anchors": ["crypto.go:WriteECPoint", "crypto.go:ReadECPoint", "crypto.go:WriteBigInt", "crypto.go:ReadBigInt"]}
{"id": "C07", "title": "Proof serialisation round trip", "statement": "For each of the GSPFS, Equivalence, Consistency, Disjunctive, ABC and Range proofs: NewXProofFromBytes(proof.Bytes()) yields the same proof with a nil error, so verification of the decoded proof gives the same verdict; hence Bytes is injective.", "quantifier": "every proof value of each type (any points with non-negative coordinates, any scalars, any number of range tuples)", "why_tests_cant": "all proofs; unit tests serialise one sample each", "anchors": ["gspfs.go:NewGSPFSProofFromBytes", "equivalence.go:NewEquivalenceProofFromBytes", "consistency.go:NewConsistencyProofFromBytes", "disjunctive.go:NewDisjunctiveProofFromBytes", "abc.go:NewABCProofFromBytes", "rangeproof.go:NewRangeProofFromBytes"]}
{"id": "C08", "title": "Decoders are crash-free and report malformed input", "statement": "A user expects NewXProofFromBytes to return an error on malformed bytes. It does not: there are byte strings on which each decoder crashes the process, and five decoders never report an error: every proper prefix of a proof decodes with a nil error to a proof with a missing number, and the empty input to one whose Verify crashes. No truncated proof is accepted (a truncated range proof: for no commitment other than zero). Only the ABC decoder reports truncation, and it reports every truncation.", "quantifier": "every byte string", "why_tests_cant": "adversarial byte strings; tests only decode honest ones", "anchors": ["crypto.go:ReadBigInt", "gspfs.go:NewGSPFSProofFromBytes", "rangeproof.go:NewRangeProofFromBytes", "abc.go:NewABCProofFromBytes"]}
{"id": "C09", "title": "Serializer free list never shares a buffer", "statement": "Under any interleaving of any number of goroutines using the serializer, no buffer is ever held by two operations at once or held while also on the free list, the list never holds more than 1024 buffers, every borrowed buffer has length 8, and no operation ever blocks.", "quantifier": "every schedule of any number of concurrent borrow/return operations", "why_tests_cant": "interleavings are unbounded; a race may need a rare schedule", "anchors": ["wire/common.go:binaryFreeList.Borrow", "wire/common.go:binaryFreeList.Return", "wire/common.go:binaryFreeList.Uint16", "wire/common.go:binaryFreeList.PutUint16"]}
{"id": "C10", "title": "Equal decides point equality", "statement": "A user expects Equal(p,q) to hold exactly when p and q are the same point. It compares X only: on the curve Equal(p,q) holds iff q = p or q = -p, so it accepts two different points.", "quantifier": "all pairs of curve points", "why_tests_cant": "all 2^512 pairs; tests compare points whose X differ", "anchors": ["crypto.go:ECPoint.Equal"]}
{"id": "C11", "title": "Add, Sub and Neg are the group operations", "statement": "For all points on the curve or the identity (0,0): Add is the elliptic curve group law, Neg the inverse, Sub(p,q) = Add(p,Neg(q)); results are again curve points or (0,0) with coordinates reduced below P. Consequently Add is commutative and associative and Sub undoes Add.", "quantifier": "all pairs/triples of curve points, including equal, opposite and identity operands", "why_tests_cant": "special cases (doubling, inverse, identity) times 2^256 points", "anchors": ["crypto.go:ZKPCurveParams.Add", "crypto.go:ZKPCurveParams.Sub", "crypto.go:ZKPCurveParams.Neg"]}
{"id": "C12", "title": "Mult is scalar multiplication", "statement": "For every curve point p whose X is neither G's nor H's and every integer s (negative, zero, larger than N), Mult(p,s) = s*p; Mult(G,s) = s*G.", "quantifier": "all curve points outside {G,-G,H,-H}, plus G, and all integers", "why_tests_cant": "all points and all integers", "anchors": ["crypto.go:ZKPCurveParams.Mult", "btcec/btcec.go:ScalarMult", "btcec/btcec.go:ScalarBaseMult"]}
{"id": "C13", "title": "Mult on -G and on H", "statement": "A user expects Mult(p,s) = s*p for all p. The code violates it: Mult(-G,s) = s*G, and Mult(H,s) multiplies a different, hard-coded point H' and not the H of the parameters; so Mult(H,1) is not H.", "quantifier": "all integers s; the special points G, -G, H, -H", "why_tests_cant": "needs the exact characterisation at the points where dispatch is by X coordinate", "anchors": ["crypto.go:ZKPCurveParams.Mult", "btcec/btcec.go:ScalarBaseMultH", "zksigma.go:init"]}
{"id": "C14", "title": "Challenges are reduced and deterministic", "statement": "GenerateChallenge returns the same value for the same inputs, always in [0,N), and depends only on the concatenation of its arguments.", "quantifier": "all argument lists", "why_tests_cant": "all byte strings", "anchors": ["crypto.go:GenerateChallenge"]}
{"id": "C15", "title": "Challenge transcripts are unambiguous", "statement": "A user of Fiat-Shamir expects different argument lists to be hashed differently. The code hashes the bare concatenation of unpadded coordinates: different lists of points give the same challenge for every hash function. When every coordinate of every point fills 32 bytes, lists of points are hashed unambiguously; the collisions come from short coordinates only.", "quantifier": "all hash functions, all argument lists", "why_tests_cant": "a structural collision, independent of the hash", "anchors": ["crypto.go:GenerateChallenge", "crypto.go:ECPoint.Bytes"]}
{"id": "C16", "title": "KeyGen, CommitR and VerifyR", "statement": "KeyGen returns a key pair with pk = sk*base and 0 <= sk < N; VerifyR accepts every CommitR(pk,r); and VerifyR(rt,pk,r) accepts only rt = r*pk or rt = -(r*pk) (the sign slack being a defect).", "quantifier": "all curve points, all integers r, all random draws", "why_tests_cant": "all keys and randomness", "anchors": ["crypto.go:KeyGen", "crypto.go:CommitR", "crypto.go:VerifyR"]}
{"id": "C17", "title": "Pedersen commitments are homomorphic", "statement": "PedCommitR(v,r) = v*G + r*H' for all integers; Add of two commitments is the commitment to the sums; Sub to the differences; value and randomness only matter modulo N.", "quantifier": "all integers v, r, v', r'", "why_tests_cant": "all integers", "anchors": ["crypto.go:PedCommitR"]}
{"id": "C18", "title": "Pedersen commitments hide perfectly", "statement": "For every curve point or identity c and every value v there is exactly one r in [0,N) with PedCommitR(v,r) = c, so the commitment is independent of the value over uniform randomness.", "quantifier": "all values and all group elements", "why_tests_cant": "statement about a distribution over 2^256 random draws", "anchors": ["crypto.go:PedCommitR", "crypto.go:PedCommit"]}
{"id": "C19", "title": "Open accepts only the committed opening", "statement": "Open(v,r,PedCommitR(v,r)) is true. Conversely a user expects Open to accept only openings of the commitment; Open accepts (v,r) for c iff v*G+r*H' = c or = -c, so (-v,-r) always opens too. Two accepted openings with different value up to sign determine the discrete log of H'.", "quantifier": "all integers and curve points", "why_tests_cant": "all openings, adversarial ones included", "anchors": ["crypto.go:Open"]}
{"id": "C20", "title": "H is a nothing-up-my-sleeve generator", "statement": "A user expects nobody to know log_G H. init computes H as k*G for a fixed public k, because the digest call appends to its argument instead of hashing it; the theorem exhibits k.", "quantifier": "the initialised parameters", "why_tests_cant": "tests cannot show that a logarithm is known; the statement is about the initialisation semantics", "anchors": ["zksigma.go:init"]}
{"id": "C21", "title": "HPoints table", "statement": "HPoints[i] = 2^i * G for every 0 <= i < 64 (also i = 63, where the shift overflows int64), and there are exactly 64.", "quantifier": "all 64 indices", "why_tests_cant": "cheap to test but depends on scalar multiplication for overflowed shift; stated for the model of generateH2tothe", "anchors": ["zksigma.go:generateH2tothe"]}
{"id": "C22", "title": "GSPFS completeness", "statement": "If A = x*base then NewGSPFSProofBase returns a proof accepted by Verify(A), for every random draw and every hash function, provided neither base nor A shares X with -G or H as the dispatch in Mult requires; the excluded inputs are shown to be necessary.", "quantifier": "all bases, x, random u, hash functions", "why_tests_cant": "all witnesses and randomness", "anchors": ["gspfs.go:NewGSPFSProofBase", "gspfs.go:GSPFSProof.Verify"]}
{"id": "C23", "title": "GSPFS special soundness", "statement": "Any two accepting transcripts with the same commitment and base and different challenges (mod N) determine x with A = x*base (up to the sign slack of Equal, which is made explicit).", "quantifier": "all proofs, points, challenges", "why_tests_cant": "knowledge soundness quantifies over all provers", "anchors": ["gspfs.go:GSPFSProof.Verify"]}
{"id": "C24", "title": "GSPFS binds its base point", "statement": "A user expects an accepted NewGSPFSProof to show knowledge of log_G A. Verify never checks Base: for every hash function and every A there is an accepting proof computed without any knowledge about A.", "quantifier": "all A and all hash functions", "why_tests_cant": "existence of a forgery for every statement", "anchors": ["gspfs.go:GSPFSProof.Verify"]}
{"id": "C25", "title": "GSPFS is honest-verifier zero knowledge", "statement": "For each challenge, the map from the prover's randomness to the transcript's response is a bijection of [0,N) and the commitment is determined by challenge and response, independently of x.", "quantifier": "all witnesses, challenges, randomness", "why_tests_cant": "distributional statement", "anchors": ["gspfs.go:NewGSPFSProofBase"]}
{"id": "C26", "title": "Provers reject false statements", "statement": "Each prover returns an error and no proof when the given witness does not satisfy the statement (up to the sign slack of Equal): GSPFS, Equivalence, Consistency, Disjunctive; ABC rejects mismatched side/value; Inequality rejects equal values; an invalid side is rejected.", "quantifier": "all points, witnesses, sides", "why_tests_cant": "all false statements", "anchors": ["gspfs.go:NewGSPFSProofBase", "equivalence.go:NewEquivalenceProof", "consistency.go:NewConsistencyProof", "disjunctive.go:NewDisjunctiveProof", "abc.go:NewABCProof", "inequality.go:NewInequalityProof"]}
{"id": "C27", "title": "Equivalence completeness", "statement": "If Result1 = x*Base1 and Result2 = x*Base2 the generated proof verifies for every randomness and hash.", "quantifier": "all bases, x, randomness, hash functions", "why_tests_cant": "all witnesses", "anchors": ["equivalence.go:NewEquivalenceProof", "equivalence.go:EquivalenceProof.Verify"]}
{"id": "C28", "title": "Equivalence soundness", "statement": "A user expects accepted proofs to imply log equality. Three accepting transcripts on the same commitments with suitable different challenges give x with Result1 = +-x*Base1 and Result2 = +-x*Base2; the signs cannot be dropped: proofs with Result2 = -x*Base2 exist and verify.", "quantifier": "all transcripts", "why_tests_cant": "all provers", "anchors": ["equivalence.go:EquivalenceProof.Verify"]}
{"id": "C29", "title": "Consistency completeness", "statement": "If CM = value*G + r*H' and CMTok = r*PubKey the generated proof verifies for every randomness and hash.", "quantifier": "all values, randomness, public keys, hash functions", "why_tests_cant": "all witnesses", "anchors": ["consistency.go:NewConsistencyProof", "consistency.go:ConsistencyProof.Verify"]}
{"id": "C30", "title": "Consistency special soundness", "statement": "Accepting transcripts with equal commitments and different challenges yield v, r with CM = v*G + r*H' and CMTok = r*PubKey, up to explicit signs.", "quantifier": "all transcripts", "why_tests_cant": "all provers", "anchors": ["consistency.go:ConsistencyProof.Verify"]}
{"id": "C31", "title": "Equivalence and Consistency zero knowledge", "statement": "For each challenge the response is a bijective image of the randomness and commitments are determined by challenge and response.", "quantifier": "all witnesses, challenges, randomness", "why_tests_cant": "distributional", "anchors": ["equivalence.go:NewEquivalenceProof", "consistency.go:NewConsistencyProof"]}
{"id": "C32", "title": "Disjunctive completeness", "statement": "If the side selected by the option is related by x, the proof verifies for both sides, every randomness and hash, whatever the other side's points are.", "quantifier": "all points, x, sides, randomness, hashes", "why_tests_cant": "all inputs", "anchors": ["disjunctive.go:NewDisjunctiveProof", "disjunctive.go:DisjunctiveProof.Verify"]}
{"id": "C33", "title": "Disjunctive soundness", "statement": "Accepting transcripts with the same T1,T2 and different challenge yield a discrete logarithm for the left or the right pair, up to explicit signs.", "quantifier": "all transcripts", "why_tests_cant": "all provers", "anchors": ["disjunctive.go:DisjunctiveProof.Verify"]}
{"id": "C34", "title": "Disjunctive proofs hide the side and the secret", "statement": "The doc comment says the verifier cannot tell which side is proved. The response is not reduced modulo N: it exceeds N on the proved side, and dividing it by the published sub-challenge recovers the secret up to a small additive error whenever the sub-challenge exceeds half of N (two candidates), so the claim fails.", "quantifier": "all runs of the prover", "why_tests_cant": "leakage is a relation over all randomness", "anchors": ["disjunctive.go:NewDisjunctiveProof"]}
{"id": "C35", "title": "ABC completeness", "statement": "With CM = v*G + r*H', CMTok = r*(sk*H') and sk invertible, NewABCProof(Left) for v = 0 and (Right) for v non-zero modulo N produce accepted proofs.", "quantifier": "all v, r, sk, randomness, hashes", "why_tests_cant": "all inputs", "anchors": ["abc.go:NewABCProof", "abc.go:ABCProof.Verify"]}
{"id": "C36", "title": "ABC soundness", "statement": "Accepting transcripts yield openings a, b, c of CM (w.r.t. G and CMTok), B, C with a*b = c, up to explicit signs, together with the disjunctive extraction.", "quantifier": "all transcripts", "why_tests_cant": "all provers", "anchors": ["abc.go:ABCProof.Verify"]}
{"id": "C37", "title": "ABC leaks", "statement": "l = u3 + (uc - v*ub)*chal is not reduced: the published value determines (uc - v*ub) up to rounding; and CToken is covered by no check: replacing it leaves Verify's answer unchanged for every proof.", "quantifier": "all runs, all replacement tokens", "why_tests_cant": "all proofs", "anchors": ["abc.go:NewABCProof", "abc.go:ABCProof.Verify"]}
{"id": "C38", "title": "Inequality completeness", "statement": "For a, b distinct modulo N with matching commitments and tokens, the proof is generated and verifies on the difference commitments.", "quantifier": "all a, b, commitments, sk, randomness", "why_tests_cant": "all inputs", "anchors": ["inequality.go:NewInequalityProof", "inequality.go:InequalityProof.Verify"]}
{"id": "C39", "title": "Inequality soundness", "statement": "A user expects an accepted InequalityProof to imply a <> b. It does not: for every opening with a = b there is an accepting proof (an ABC Left proof).", "quantifier": "all equal commitments, all hash functions", "why_tests_cant": "existence of a false accepting proof", "anchors": ["inequality.go:InequalityProof.Verify", "abc.go:NewABCProof"]}
{"id": "C40", "title": "Inequality and ABC provers do not crash", "statement": "A user expects an error for bad inputs. If a = b + k*N (k <> 0), or sk = 0 mod N, the prover crashes by dereferencing a nil inverse.", "quantifier": "all such inputs", "why_tests_cant": "all inputs of that congruence class", "anchors": ["inequality.go:NewInequalityProof", "abc.go:NewABCProof"]}
{"id": "C41", "title": "Range prover accepts exactly its range", "statement": "NewRangeProof errors for negative values and values above 2^40. The boundary is off by one: 2^40 itself is accepted although only 40 bits are encoded, and the proof it returns never verifies against a commitment to 2^40 with the returned randomness.", "quantifier": "all integers", "why_tests_cant": "all values, boundary included", "anchors": ["rangeproof.go:NewRangeProof"]}
{"id": "C42", "title": "Range completeness", "statement": "For 0 <= v < 2^40, when the random draws avoid degenerate points and the final hash is below N, the proof verifies against PedCommitR(v, returned randomness), whatever the goroutine schedule in prover and verifier.", "quantifier": "all values, randomness, schedules, hashes", "why_tests_cant": "all inputs and schedules", "anchors": ["rangeproof.go:NewRangeProof", "rangeproof.go:RangeProof.Verify"]}
{"id": "C43", "title": "Range proofs verify for every hash outcome", "statement": "A user expects honest proofs to always verify. Verify compares the reduced e0 with the unreduced digest: when the digest is at least N the honest proof is rejected.", "quantifier": "all hash functions with a digest >= N", "why_tests_cant": "needs a digest in a 2^-128 set; a test never sees it", "anchors": ["rangeproof.go:RangeProof.Verify"]}
{"id": "C44", "title": "Range verification is schedule independent and terminates", "statement": "Under every interleaving of the verifier's goroutines and the bounded result channel, Verify neither deadlocks nor returns a verdict depending on the schedule; the same holds for the prover's two phases. Early return on a nil entry leaves goroutines blocked forever once more than 10 are started.", "quantifier": "all interleavings", "why_tests_cant": "schedules are unbounded", "anchors": ["rangeproof.go:RangeProof.Verify", "rangeproof.go:verifyGen", "rangeproof.go:proofGenA", "rangeproof.go:proofGenB"]}
{"id": "C45", "title": "Range soundness", "statement": "From accepting transcripts one extracts, for each bit, an opening to 0 or 2^i. A user also expects the proved range to be 2^40: Verify does not fix the number of tuples, so any length up to 64 is accepted, proving only v < 2^64; lengths above 64 crash the verifier.", "quantifier": "all proofs and lengths", "why_tests_cant": "all provers", "anchors": ["rangeproof.go:RangeProof.Verify", "rangeproof.go:verifyGen"]}
{"id": "C46", "title": "Verifiers never crash", "statement": "A user expects Verify on any decoded proof to return true or an error. On proofs with present scalars and coordinates below 2^256 each Verify returns; a nil proof returns an error (except a nil ABC proof, which crashes); a missing scalar or an oversized coordinate crashes.", "quantifier": "all proof values and points", "why_tests_cant": "adversarial inputs", "anchors": ["gspfs.go:GSPFSProof.Verify", "disjunctive.go:DisjunctiveProof.Verify", "abc.go:ABCProof.Verify", "btcec/field.go:fieldVal.SetByteSlice"]}
{"id": "C47", "title": "Proofs are non-malleable", "statement": "A user may use proof bytes as an identifier. For GSPFS, Equivalence, Disjunctive and ABC, adding a multiple of N to a response yields a different accepted proof.", "quantifier": "all accepted proofs", "why_tests_cant": "all proofs", "anchors": ["equivalence.go:EquivalenceProof.Verify", "disjunctive.go:DisjunctiveProof.Verify", "gspfs.go:GSPFSProof.Verify"]}
{"id": "C48", "title": "Field arithmetic is exact", "statement": "The 10x26-bit field element operations compute addition, negation, small-multiple, multiplication, squaring and inversion modulo P for all limb vectors within the documented magnitudes, with no 32- or 64-bit overflow; Normalize yields the unique representative in [0,P).", "quantifier": "all limb vectors within magnitude bounds", "why_tests_cant": "2^320 inputs; carries are rare-case bugs", "anchors": ["btcec/field.go:Normalize", "btcec/field.go:Mul2", "btcec/field.go:SquareVal", "btcec/field.go:NegateVal", "btcec/field.go:Inverse"]}
{"id": "C49", "title": "Field byte conversion", "statement": "SetBytes followed by Normalize and Bytes is reduction modulo P of the big-endian integer; Bytes after Normalize then SetBytes is the identity; SetByteSlice of more than 32 bytes crashes.", "quantifier": "all 32-byte strings", "why_tests_cant": "2^256 inputs", "anchors": ["btcec/field.go:SetBytes", "btcec/field.go:PutBytes", "btcec/field.go:SetByteSlice"]}
{"id": "C50", "title": "Curve addition and doubling", "statement": "KoblitzCurve.Add and Double agree with the affine group law on all curve points and the identity, for all internal Jacobian representations; IsOnCurve decides y^2 = x^3 + 7. The operations and ScalarMult panic exactly when a coordinate they convert has more than 256 bits.", "quantifier": "all points, all Z coordinates", "why_tests_cant": "all inputs incl. special cases", "anchors": ["btcec/btcec.go:Add", "btcec/btcec.go:Double", "btcec/btcec.go:IsOnCurve", "btcec/btcec.go:addGeneric", "btcec/btcec.go:doubleGeneric"]}
{"id": "C51", "title": "ScalarMult for every byte string", "statement": "ScalarMult(P,k) = int(k)*P for every curve point P and every byte string k of any length; ScalarBaseMult(k) = int(k)*G likewise; ScalarBaseMultH(k) = int(k)*H'.", "quantifier": "all points, all byte strings", "why_tests_cant": "all scalars incl. longer than 32 bytes", "anchors": ["btcec/btcec.go:ScalarMult", "btcec/btcec.go:ScalarBaseMult", "btcec/btcec.go:ScalarBaseMultH", "btcec/btcec.go:moduloReduce"]}
{"id": "C52", "title": "NAF and scalar splitting", "statement": "NAF(k) returns two byte strings whose integer difference is k and which are never both set in a bit, with no two adjacent non-zero digits; splitK(k) returns k1,k2 with k1 + k2*lambda = k mod N and both at most 2^129 in magnitude.", "quantifier": "all byte strings k", "why_tests_cant": "all inputs", "anchors": ["btcec/btcec.go:NAF", "btcec/btcec.go:splitK"]}
{"id": "C53", "title": "Curve parameters", "statement": "P and N are prime, G has order exactly N, the curve group has exactly N elements (cofactor 1), lambda and beta define the endomorphism used by splitK.", "quantifier": "all points of the curve", "why_tests_cant": "number-theoretic facts no test can establish", "anchors": ["btcec/btcec.go:initS256"]}
{"id": "C54", "title": "Public key serialisation", "statement": "SerializeUncompressed, SerializeCompressed and SerializeHybrid of a curve point are the SEC 1 encodings; ParsePubKey inverts each of them; every accepted string is one of these encodings of the curve point returned (coordinates below P), except that the undocumented first byte 5 is accepted as well; two points with the same encoding are equal; malformed strings give an error, never a crash; PrivKeyFromBytes and Serialize of a private key round-trip and the public half is D*G. IsCompressedPubKey tells exactly the 33-byte strings starting with 2 or 3; IsEqual of two keys holds exactly when the points, equivalently their encodings, are equal.", "quantifier": "all public keys, all byte strings", "why_tests_cant": "all inputs", "anchors": ["btcec/pubkey.go:ParsePubKey", "btcec/pubkey.go:SerializeCompressed", "btcec/pubkey.go:decompressPoint", "btcec/pubkey.go:IsCompressedPubKey", "btcec/pubkey.go:IsEqual"]}
{"id": "C55", "title": "Signature DER serialisation", "statement": "Serialize of a signature with 0<R<N, 0<S<N is the DER encoding of (R, min(S,N-S)); ParseDERSignature and ParseSignature invert it; ParseDERSignature accepts exactly the strict DER encodings followed by anything, each value having one encoding; ParseSignature accepts only strings that hold the returned pair, with both in range; a user expects parsing never to crash, but certain length bytes (for example 254 and 255) crash it: the exact set is characterised.", "quantifier": "all signatures, all byte strings", "why_tests_cant": "all inputs", "anchors": ["btcec/signature.go:Serialize", "btcec/signature.go:parseSig"]}
{"id": "C56", "title": "ECDSA", "statement": "Verify decides the ECDSA equation; Sign returns a signature with low S for every key, hash and hash function unless its nonce search does not end, and that signature verifies under the corresponding public key; RecoverCompact of SignCompact returns the signer's key and the compression flag. The one exception is a nonce whose point has x = N: the signature then does not verify. A user expects RecoverCompact to return only keys under which the signature is valid and never to crash; both fail.", "quantifier": "all keys, hashes, nonces", "why_tests_cant": "all keys and messages", "anchors": ["btcec/signature.go:signRFC6979", "btcec/signature.go:RecoverCompact", "btcec/signature.go:SignCompact"]}
{"id": "C57", "title": "ECDH and encryption round trip", "statement": "GenerateSharedSecret(a, bG) = GenerateSharedSecret(b, aG); Encrypt writes the documented structure; Decrypt inverts Encrypt for every message, key pair, ephemeral key and IV; whatever Decrypt accepts carries a correct MAC under the key derived from the private key and the enclosed curve point; Decrypt never crashes; Encrypt leaves the message bytes alone. A user also expects a fixed-length secret, a padding check, and that Encrypt does not write to the spare capacity of the slice it is given: all three fail.", "quantifier": "all keys, messages, ephemeral draws, IVs, all byte strings given to Decrypt, every block cipher and hash function", "why_tests_cant": "all inputs", "anchors": ["btcec/ciphering.go:GenerateSharedSecret", "btcec/ciphering.go:Encrypt", "btcec/ciphering.go:Decrypt"]}
{"id": "C58", "title": "Varint writers on failing writers", "statement": "WriteVarInt and WriteVarBytes return a nil error exactly when the writer accepted the complete encoding, and in that case exactly the encoding was written; when the writer fails they return an error and what was written is an initial part of the encoding.", "quantifier": "every 64-bit value, every byte slice, every writer that fails after any number of bytes", "why_tests_cant": "every failure point of the writer for every value", "anchors": ["wire/common.go:WriteVarInt", "wire/common.go:WriteVarBytes"]}
{"id": "C59", "title": "Precomputed tables are generated and loaded correctly", "statement": "The bytes SerializedBytePoints and SerializedBytePointsH write, unpacked when the package starts, are tables whose entry (i, b) is b*256^(31-i) times G, respectively times the second generator, so the curve object computes the secp256k1 group. The second generator is the point with even y whose x is SHA-256(Gx+2). A table that is too short makes the start-up crash, and only that does; a wrong table of the right size is accepted (a user would expect it to be refused).", "quantifier": "all table entries, all embedded texts, every decoding of them", "why_tests_cant": "16384 points each compared with a group multiple, and arbitrary damaged data", "anchors": ["btcec/gensecp256k1.go:SerializedBytePoints", "btcec/gensecp256k1.go:SerializedBytePointsH", "btcec/precompute.go:loadS256BytePoints", "btcec/precompute.go:loadS256BytePointsH", "btcec/btcec.go:initS256"]}
{"id": "C60", "title": "Derivation of the endomorphism constants", "statement": "EndomorphismVectors returns exactly the constants a1, b1, a2, b2 built into the curve, and for every modulus and multiplier the vectors it returns satisfy a + b*lambda = 0 modulo N. Its helper sqrt returns the integer square root of every positive number it returns on; it fails to return exactly on numbers one below a square, and crashes on zero.", "quantifier": "all moduli, multipliers and numbers, any number of rounds", "why_tests_cant": "non-termination cannot be tested, and the numbers range over all integers", "anchors": ["btcec/gensecp256k1.go:EndomorphismVectors", "btcec/gensecp256k1.go:sqrt", "btcec/btcec.go:initS256"]}
{"id": "C61", "title": "A range proof keeps the value secret", "statement": "A user expects a published range proof to reveal only that the committed value is in range. It does not: the responses are published without reduction modulo N, so a response of at least N^2 shows that its bit is 0; whenever the shared challenge exceeds N/2 and the responses at 0-bits are that large, anyone computes from the published proof alone the committed value and an opening of every bit commitment.", "quantifier": "all values in range, all random draws, all hash functions", "why_tests_cant": "a test sees only that the proof verifies; what every observer can compute from every proof is not a test outcome", "anchors": ["rangeproof.go:NewRangeProof", "rangeproof.go:RangeProof"]}
{"id": "C62", "title": "ABC and inequality proofs keep the key and the order secret", "statement": "A user expects an ABC proof to reveal neither the private key nor whether the value is 0, and an inequality proof not to reveal which value is larger. It does: for value 0 with sub-challenge above N/2 the private key is the response divided by the sub-challenge, up to 1; the size of the two responses tells whether the value is 0; a negative published response of an inequality proof tells that the first value is larger, and this happens whenever the difference times the blinding factor is large.", "quantifier": "all commitments, values, keys and random draws, all hash functions", "why_tests_cant": "secrecy ranges over all transcripts and observers", "anchors": ["abc.go:NewABCProof", "inequality.go:NewInequalityProof", "disjunctive.go:NewDisjunctiveProof"]}
{"id": "C63", "title": "Signature identity", "statement": "IsEqual of two signatures holds exactly when both numbers agree. A signature is not unique: (R, N-S) verifies whenever (R, S) does. Serialize sends both to the same bytes, which parse (with any trailing bytes) to a signature with S at most N/2 that still verifies. Signing and verification depend only on the first 32 bytes of the digest.", "quantifier": "all signatures, digests, keys and trailing bytes", "why_tests_cant": "all inputs", "anchors": ["btcec/signature.go:IsEqual", "btcec/signature.go:Serialize", "btcec/signature.go:Verify", "btcec/signature.go:hashToInt", "btcec/signature.go:signRFC6979"]}
{"id": "C64", "title": "A proof survives the wire", "statement": "For each of the six proof types: the proof an honest prover returns serialises without error, the bytes followed by anything decode to exactly that proof, and the decoded proof is accepted by the verifier on the same statement.", "quantifier": "all statements, witnesses, random draws and trailing bytes", "why_tests_cant": "all inputs; composition of prover, encoder, decoder and verifier", "anchors": ["gspfs.go:Bytes", "gspfs.go:NewGSPFSProofFromBytes", "equivalence.go:NewEquivalenceProofFromBytes", "consistency.go:NewConsistencyProofFromBytes", "disjunctive.go:NewDisjunctiveProofFromBytes", "abc.go:NewABCProofFromBytes", "rangeproof.go:NewRangeProofFromBytes"]}
{"id": "C65", "title": "Decoded proofs re-encode to themselves; encodings are not unique", "statement": "For each of the six decoders: a proof decoded from a byte string and complete (no missing point or number) serialises without error and decodes again to exactly the same proof. The converse fails: different byte strings decode to the same proof, because sign bytes other than 0 count as given, and leading zeros of numbers are accepted.", "quantifier": "all byte strings up to the size limit", "why_tests_cant": "all inputs", "anchors": ["gspfs.go:NewGSPFSProofFromBytes", "equivalence.go:NewEquivalenceProofFromBytes", "consistency.go:NewConsistencyProofFromBytes", "disjunctive.go:NewDisjunctiveProofFromBytes", "abc.go:NewABCProofFromBytes", "rangeproof.go:NewRangeProofFromBytes", "crypto.go:ReadECPoint", "crypto.go:ReadBigInt"]}
{"id": "C66", "title": "No false statement is accepted", "statement": "A verifier accepts no proof of a false statement made from public values only. Refuted for four proofs: since Mult replaces the parameter H by the tabulated H' and the logarithm of H is public, a range proof is accepted for a commitment to a known value near 2^255, an equivalence proof is accepted for points with no common logarithm, a consistency proof is accepted for a commitment and a token with different blindings, and an ABC proof of 'the value is 0' is accepted for a commitment to another value.", "quantifier": "all hash functions, bit counts, nonces, keys", "why_tests_cant": "all hash functions; adversarial inputs", "anchors": ["rangeproof.go:Verify", "equivalence.go:Verify", "consistency.go:Verify", "abc.go:Verify", "crypto.go:Mult", "zksigma.go:init"]}
{"id": "C67", "title": "What an accepted ABC proof says about the committed value", "statement": "Let CM commit to v with blinding r and let CMTok be its token under the key sk*H', r and sk not 0. From accepted ABC proofs with the same first messages and different challenges one computes an opening of the proof's C as a commitment to 0, and v = 0; or as a commitment to 1, and v is not 0; or the logarithm of H'. Both conditions are needed: with a token of the prover's choice, or with blinding 0 (even next to an accepted consistency proof), a proof with C committing to 0 is accepted for every v.", "quantifier": "all values, blindings, keys, transcripts", "why_tests_cant": "extraction over all provers", "anchors": ["abc.go:Verify", "abc.go:NewABCProof", "disjunctive.go:Verify", "consistency.go:Verify"]}
{"id": "C68", "title": "Verification binds both coordinates of the points it is given", "statement": "A user expects an accepted proof to speak about the very points handed to Verify, and those to be curve points. It does not: the verdict of a range proof depends neither on the Y coordinate of the commitment nor on that of the aggregate in the proof, so every range proof for a commitment to v is accepted for the opposite commitment, which commits to -v, and for points off the curve; and GSPFS proofs with an off-curve commitment and any Y coordinate are accepted.", "quantifier": "every range proof, commitment and Y coordinate; every GSPFS secret, draw, hash function and integer Y", "why_tests_cant": "a claim about all proofs and all coordinates; tests only verify honest points", "anchors": ["rangeproof.go:Verify", "gspfs.go:Verify", "crypto.go:Equal"]}
{"id": "C69", "title": "A failing random source never yields a proof", "statement": "When a draw from the system random source fails, no prover returns a proof with a nil error, whatever the statement, and for true statements the failure is returned as an error. The range prover is the exception a user does not expect: it drops the errors of its goroutines, and any failed draw crashes the process.", "quantifier": "every prover, every statement and parameter set, every draw that may fail, every range value and position", "why_tests_cant": "the random source does not fail in tests, and every draw of every prover has to be considered", "anchors": ["gspfs.go:NewGSPFSProofBase", "equivalence.go:NewEquivalenceProof", "consistency.go:NewConsistencyProof", "disjunctive.go:NewDisjunctiveProof", "abc.go:NewABCProof", "inequality.go:NewInequalityProof", "rangeproof.go:proofGenA", "rangeproof.go:proofGenB", "rangeproof.go:NewRangeProof"]}
{"id": "C70", "title": "Signatures use exactly the RFC 6979 nonce", "statement": "Signing a hash with a private key uses the nonce that RFC 6979 prescribes for that key and hash (HMAC-SHA256, first candidate in 1..N-1), with s taken in its low half, and reports an error when s would be zero; so two calls with the same key and hash give the same signature, and the signature is a function of nothing else. A signature is produced only when the RFC search ends.", "quantifier": "all private keys, all message hashes of any length the RFC conversion covers, any number of rejected candidates", "why_tests_cant": "test vectors never reach a rejected candidate, and cover a handful of keys", "anchors": ["btcec/signature.go:signRFC6979", "btcec/signature.go:nonceRFC6979", "btcec/signature.go:mac", "btcec/signature.go:int2octets", "btcec/signature.go:bits2octets"]}
{"id": "C71", "title": "Auditing a history of commitments", "statement": "For every history of transactions, the sum of the commitments opens to the total and the sum of the tokens is the token of the total blinding factor; the owner of the key pk = Mult(H, sk) can prove the true total to an auditor, and nobody who can answer the challenges can prove another total unless they know the logarithm of the second base. The same does not hold of keys made by the package's own KeyGen(curve, H): with such a key no audit proof and no zero-side ABC proof is ever produced, because KeyGen and Mult use different points for H.", "quantifier": "all histories of any length, all amounts, blinding factors, keys, claimed totals, hash functions and draws", "why_tests_cant": "histories are unbounded and soundness is about every prover; KeyGen is never used together with the provers in the tests", "anchors": ["crypto.go:KeyGen", "crypto.go:ZKPCurveParams.Mult", "crypto.go:PedCommitR", "crypto.go:CommitR", "crypto.go:ZKPCurveParams.Add", "crypto.go:ZKPCurveParams.Sub", "equivalence.go:NewEquivalenceProof", "equivalence.go:EquivalenceProof.Verify", "abc.go:NewABCProof"]}
{"id": "C72", "title": "In-place curve arithmetic is alias safe and leaves no trace", "statement": "Add, Double, ScalarMult and the two base multiplications return the value of the mathematical operation although they work in place on variables passed by pointer: the result of an addition or doubling may be written over either operand, operands are normalized where they stand, ScalarMult swaps its pointers and accumulates into the same point. No call changes any variable that existed before it: not the shared constant one, not the curve's beta, not an entry of the precomputed tables.", "quantifier": "all coordinates and scalars, all contents of memory, all placements of the variables and every admissible aliasing of input and output pointers", "why_tests_cant": "a wrong order of reads and writes shows only for particular aliasing and particular branches; an unwanted write to a shared table or constant shows only in a later call", "anchors": ["btcec/btcec.go:KoblitzCurve.addJacobian", "btcec/btcec.go:KoblitzCurve.addZ1AndZ2EqualsOne", "btcec/btcec.go:KoblitzCurve.addZ1EqualsZ2", "btcec/btcec.go:KoblitzCurve.addZ2EqualsOne", "btcec/btcec.go:KoblitzCurve.addGeneric", "btcec/btcec.go:KoblitzCurve.doubleJacobian", "btcec/btcec.go:KoblitzCurve.fieldJacobianToBigAffine", "btcec/btcec.go:KoblitzCurve.Add", "btcec/btcec.go:KoblitzCurve.Double", "btcec/btcec.go:KoblitzCurve.ScalarMult", "btcec/btcec.go:KoblitzCurve.ScalarBaseMult", "btcec/btcec.go:KoblitzCurve.ScalarBaseMultH"]}
{"id": "C73", "title": "Concurrent use of one curve object", "statement": "Any number of goroutines may call Add, Double, ScalarMult, ScalarBaseMult and ScalarBaseMultH on the same curve object at the same time, as the range prover and verifier do. Under every interleaving of their memory accesses each call returns what it would return alone, no shared variable is changed, no call waits for another, and there is no data race.", "quantifier": "all numbers of goroutines, all requests, all schedules at the granularity of single accesses to field variables, all contents of memory", "why_tests_cant": "the number of schedules is astronomical and a race shows only on some of them", "anchors": ["btcec/btcec.go:KoblitzCurve.Add", "btcec/btcec.go:KoblitzCurve.Double", "btcec/btcec.go:KoblitzCurve.ScalarMult", "btcec/btcec.go:KoblitzCurve.ScalarBaseMult", "btcec/btcec.go:KoblitzCurve.ScalarBaseMultH", "btcec/btcec.go:fieldOne", "btcec/btcec.go:S256", "rangeproof.go:NewRangeProof", "rangeproof.go:RangeProof.Verify"]}
{"id": "C74", "title": "Calls treat *big.Int arguments and results as values", "statement": "No call of the package changes an integer that existed before it: not an argument (points, secrets, proofs, commitments, even when the same pointer is passed several times or belongs to the curve parameters), not a parameter, not the package variables Zero and BigZero. What a call returns, and whether it panics, depends only on the values of its arguments, so a program that makes calls one after the other gets what the same program on values gets. The integers of a new proof, key or commitment did not exist before the call, except where stated: the Base of a GSPFS proof, operands returned by Add and Sub, the X of a negation, Zero beside an error, and entries of HPoints in a range proof. Those exceptions are observable: writing to such a result changes the generator, Zero or the caller's point.", "quantifier": "all parameters, all arguments including nil and aliased ones, all contents of memory, all hash functions and draws, all programs made of calls", "why_tests_cant": "math/big works in place and returns its receiver, so an unwanted write shows only for particular aliasing and only in a later call", "anchors": ["crypto.go:ECPoint", "crypto.go:ZKPCurveParams.Mult", "crypto.go:ZKPCurveParams.Add", "crypto.go:ZKPCurveParams.Sub", "crypto.go:ZKPCurveParams.Neg", "crypto.go:ReadECPoint", "crypto.go:ReadBigInt", "crypto.go:PedCommit", "crypto.go:PedCommitR", "crypto.go:Open", "crypto.go:CommitR", "crypto.go:VerifyR", "crypto.go:KeyGen", "crypto.go:Zero", "gspfs.go:NewGSPFSProofBase", "equivalence.go:NewEquivalenceProof", "consistency.go:NewConsistencyProof", "disjunctive.go:NewDisjunctiveProof", "abc.go:NewABCProof", "inequality.go:NewInequalityProof", "rangeproof.go:NewRangeProof", "rangeproof.go:RangeProof.Verify"]}
{"id": "C75", "title": "Concurrent use of the whole package", "statement": "Any number of goroutines may prove, verify, commit, encode and decode at the same time with the same parameters and with shared points, keys, commitments and proofs. Under every interleaving of their accesses to integers, a goroutine that has finished has the result it would have got alone, shared integers never change, no goroutine waits for another, and there is no data race.", "quantifier": "all numbers of goroutines, all programs made of calls that each of them runs, all schedules at the granularity of single reads and writes of integers, all contents of memory", "why_tests_cant": "the number of schedules is astronomical, and an unintended write to a shared integer is a race only on some of them", "anchors": ["crypto.go:ECPoint", "crypto.go:ZKPCurveParams.Mult", "crypto.go:ZKPCurveParams.Add", "crypto.go:ZKPCurveParams.Sub", "crypto.go:ZKPCurveParams.Neg", "crypto.go:ReadECPoint", "crypto.go:ReadBigInt", "crypto.go:PedCommit", "crypto.go:PedCommitR", "crypto.go:Open", "crypto.go:CommitR", "crypto.go:VerifyR", "crypto.go:KeyGen", "crypto.go:Zero", "gspfs.go:NewGSPFSProofBase", "equivalence.go:NewEquivalenceProof", "consistency.go:NewConsistencyProof", "disjunctive.go:NewDisjunctiveProof", "abc.go:NewABCProof", "inequality.go:NewInequalityProof", "rangeproof.go:NewRangeProof", "rangeproof.go:RangeProof.Verify"]}
{"id": "C76", "title": "Field arithmetic in place, word by word", "statement": "Each method of fieldVal works in place on ten 32-bit words, loading and storing them one at a time and wrapping at every machine operation. Whichever of its pointers (receiver and operands) are equal, it leaves in the receiver the value computed from the operands as they were before the call, and changes no other variable; IsZero, IsOdd, Equals and Bytes change nothing; Inverse works outside its own local variables. Within the documented magnitudes these values are the sum, negation, product and square modulo the field prime.", "quantifier": "all pointers and every way they can coincide, all contents of all words, all magnitudes within the documented limits", "why_tests_cant": "a store that comes before the last load of an operand word is wrong only for particular aliasing and particular words", "anchors": ["btcec/field.go:fieldVal.Zero", "btcec/field.go:fieldVal.Set", "btcec/field.go:fieldVal.SetInt", "btcec/field.go:fieldVal.SetBytes", "btcec/field.go:fieldVal.SetByteSlice", "btcec/field.go:fieldVal.Normalize", "btcec/field.go:fieldVal.Bytes", "btcec/field.go:fieldVal.IsZero", "btcec/field.go:fieldVal.IsOdd", "btcec/field.go:fieldVal.Equals", "btcec/field.go:fieldVal.NegateVal", "btcec/field.go:fieldVal.AddInt", "btcec/field.go:fieldVal.Add", "btcec/field.go:fieldVal.Add2", "btcec/field.go:fieldVal.MulInt", "btcec/field.go:fieldVal.Mul2", "btcec/field.go:fieldVal.SquareVal", "btcec/field.go:fieldVal.Inverse"]}
{"id": "C77", "title": "Concurrent use of one curve object, word by word", "statement": "Any number of goroutines may call IsOnCurve, Add, Double, ScalarMult, ScalarBaseMult and ScalarBaseMultH on the same curve object at the same time. Even when they are interrupted before every load and every store of a single 32-bit word, each call returns what it would return alone, no shared variable is changed, no call waits for another, and no goroutine is ever about to store a word that another is about to load or store.", "quantifier": "all numbers of goroutines, all requests, all schedules at the granularity of single 32-bit loads and stores, all contents of memory", "why_tests_cant": "torn field values appear only on some of astronomically many schedules", "anchors": ["btcec/btcec.go:KoblitzCurve.IsOnCurve", "btcec/btcec.go:KoblitzCurve.Add", "btcec/btcec.go:KoblitzCurve.Double", "btcec/btcec.go:KoblitzCurve.ScalarMult", "btcec/btcec.go:KoblitzCurve.ScalarBaseMult", "btcec/btcec.go:KoblitzCurve.ScalarBaseMultH", "btcec/field.go:fieldVal", "rangeproof.go:NewRangeProof"]}
{"id": "C78", "title": "Which words are touched: field arithmetic hides its values, scalar multiplication reveals the scalar", "statement": "The sequence of memory words that a method of fieldVal loads and stores does not depend on the values it works on, nor on the integer or byte arguments it is given (SetByteSlice: only on their number); the same holds for IsOnCurve on points that fit in 32 bytes and for the conversion back to affine coordinates. It does not hold for multiplication by a scalar: for the same point, ScalarMult touches different sequences of words for any two scalars that differ modulo the group order, and so do ScalarBaseMult and ScalarBaseMultH; an observer of the accesses therefore learns the scalar.", "quantifier": "all pointers, all contents of memory, all arguments; all points that fit in 32 bytes and all pairs of byte strings as scalars", "why_tests_cant": "a test sees results, not the words that were touched, and constancy is a statement about all pairs of runs", "anchors": ["btcec/field.go:fieldVal.Normalize", "btcec/field.go:fieldVal.IsZero", "btcec/field.go:fieldVal.IsOdd", "btcec/field.go:fieldVal.Equals", "btcec/field.go:fieldVal.NegateVal", "btcec/field.go:fieldVal.AddInt", "btcec/field.go:fieldVal.Add", "btcec/field.go:fieldVal.Add2", "btcec/field.go:fieldVal.MulInt", "btcec/field.go:fieldVal.Mul2", "btcec/field.go:fieldVal.SquareVal", "btcec/field.go:fieldVal.Inverse", "btcec/field.go:fieldVal.SetByteSlice", "btcec/field.go:fieldVal.Bytes", "btcec/btcec.go:KoblitzCurve.IsOnCurve", "btcec/btcec.go:KoblitzCurve.ScalarMult", "btcec/btcec.go:KoblitzCurve.ScalarBaseMult", "btcec/btcec.go:KoblitzCurve.ScalarBaseMultH"]}
{"id": "C79", "title": "Texts denote the numbers and tables they were made from", "statement": "Setting a field value from up to 64 hexadecimal digits of either case, of even or odd number, gives the number they denote; its printed form is 64 digits that denote the value modulo P and read back to the normalised value. The curve constants' hexadecimal reader accepts exactly the signed hexadecimal numerals and panics on anything else, and reads back what the generator prints, so that the printed vectors are the curve's constants. The generator's two source files declare the two variables, and a package built with them starts and computes the group, for any reversible compression. Two expectations fail: more than 64 digits panic although only the first 32 bytes are said to be used, and a text with a bad character is not refused but cut short.", "quantifier": "all texts, all numbers, all field values within the limits of the type, all reversible compressions", "why_tests_cant": "the tests read a few literals; that a coding loses nothing ranges over all values, and the generator's output is never read back in a test", "anchors": ["btcec/field.go:fieldVal.String", "btcec/field.go:fieldVal.SetHex", "btcec/btcec.go:fromHex", "btcec/genprecomps.go:main", "btcec/precompute.go:loadS256BytePoints", "btcec/gensecp256k1.go:KoblitzCurve.SerializedBytePoints"]}
{"id": "C80", "title": "Every call of S256 returns the one complete curve object", "statement": "For any number of concurrent first calls of S256, in any interleaving: no call panics, every call that returns sees every field of the curve object with its SEC 2 value and the tables of the embedded texts, nothing writes to the object after that, the construction is never run by two calls at once, no call waits for ever and each takes a bounded number of steps. One expectation fails: if the embedded texts cannot be loaded only one call panics; every other call returns a curve object with nil fields.", "quantifier": "all numbers of calls, all interleavings, all embedded texts and all decoders of them", "why_tests_cant": "initialisation happens once per process before any test runs, and the schedules of concurrent first calls cannot be enumerated", "anchors": ["btcec/btcec.go:initS256", "btcec/btcec.go:initAll", "btcec/btcec.go:S256", "btcec/btcec.go:fromHex", "btcec/precompute.go:loadS256BytePoints", "btcec/precompute.go:loadS256BytePointsH"]}
{"id": "C81", "title": "Memory asked for while decoding", "statement": "A read of a byte string, point or integer that reports no error asked for fewer bytes of memory than it took from the stream, and an input that decodes to a proof with all its numbers made the decoder ask for at most a small multiple of its own length (1 for the simple proofs, 2 for the ABC proof, 13 for the range proof). The expectation that this holds for every input fails: nine bytes make any of the six decoders ask for any chosen amount up to 2^48 bytes, five of them then report no error, and thirteen bytes decode without error to a range proof of any number of digits.", "quantifier": "all inputs and all requested sizes", "why_tests_cant": "a bound on resources over all inputs cannot be sampled, and requests near the limit cannot be run", "anchors": ["wire/common.go:ReadVarBytes", "crypto.go:ReadECPoint", "crypto.go:ReadBigInt", "gspfs.go:NewGSPFSProofFromBytes", "equivalence.go:NewEquivalenceProofFromBytes", "consistency.go:NewConsistencyProofFromBytes", "disjunctive.go:NewDisjunctiveProofFromBytes", "abc.go:NewABCProofFromBytes", "rangeproof.go:NewRangeProofFromBytes"]}
{"id": "C82", "title": "Draws must be fresh and stay secret", "statement": "Two proofs of the same secret made with the same random draw under different challenges reveal the secret to anyone, by one division modulo the group order; so does one proof together with its draw, and two secrets proved with the same draw reveal each other. This holds for GSPFS, equivalence, consistency (value and randomness), disjunctive (whichever side) and ABC proofs (value and key). A signature with its nonce, or two signatures over different digests with the same nonce, leave two candidates for the private key.", "quantifier": "all curve parameters of the group's order, hash functions, points, secrets, draws, keys and messages", "why_tests_cant": "it is an algebraic identity over all draws and challenges; with a sound random source a repeated draw never occurs in a test", "anchors": ["gspfs.go:NewGSPFSProofBase", "equivalence.go:NewEquivalenceProof", "consistency.go:NewConsistencyProof", "disjunctive.go:NewDisjunctiveProof", "abc.go:NewABCProof", "btcec/signature.go:signRFC6979", "btcec/signature.go:nonceRFC6979"]}
{"id": "C83", "title": "Any reader, any writer", "statement": "ReadVarInt, ReadVarBytes, ReadECPoint and ReadBigInt return what the bytes of the reader determine, whatever the portions in which it delivers them, empty answers included, and whether its final error comes with the last bytes or after them; where bytes are missing they report the reader's own error. Over a reader whose errors come and go a returned value is still the one its bytes denote. They return unless the reader answers nothing without error for ever. io.EOF means that the stream ended between two items (refuted). WriteVarInt, WriteVarBytes, WriteECPoint and WriteBigInt report an error exactly when the writer does, at once, having written an initial part of the encoding.", "quantifier": "all readers and writers within the contracts of io.Reader and io.Writer, all values", "why_tests_cant": "the portions and failure points of a network connection are unbounded in number; tests use in-memory buffers", "anchors": ["wire/common.go:ReadVarInt", "wire/common.go:ReadVarBytes", "wire/common.go:WriteVarInt", "wire/common.go:WriteVarBytes", "crypto.go:ReadECPoint", "crypto.go:ReadBigInt", "crypto.go:WriteECPoint", "crypto.go:WriteBigInt"]}
{"id": "C84", "title": "Draws are uniform and schedules do not matter", "statement": "Every random number that a prover draws is, over the bytes of the random source, equally likely to be any number below the order; fewer than one attempt in 2^127 is repeated. Any number of draws, one after the other or by goroutines sharing the source under any scheduler, have every outcome equally likely, so the schedule of the range prover's goroutines does not change the chance of any result. A commitment is equally likely to be any point whatever the committed value; for a given challenge a proof of knowledge, of equivalence or of consistency is equally likely to come from the prover and from a simulator without the secret, and so is a disjunctive proof of either side once its responses are reduced modulo N; as published it shows its side, and its secret up to one, in at least a third of the cases. Every public key of KeyGen is equally likely. Private keys are drawn from 1 to N-1 with a bias of at most one case in 2^64; RandomUint64 is exactly uniform.", "quantifier": "all lengths of the source, all limits, all numbers of draws, all schedulers (which may depend on every byte read so far), all values, points, challenges and results", "why_tests_cant": "chances over 2^256 and more cases cannot be sampled; a scheduler that correlates with the bytes read is not one a test can choose", "anchors": ["crypto.go:PedCommit", "crypto.go:KeyGen", "gspfs.go:NewGSPFSProofBase", "equivalence.go:NewEquivalenceProof", "consistency.go:NewConsistencyProof", "rangeproof.go:NewRangeProof", "rangeproof.go:proofGenA", "rangeproof.go:proofGenB", "btcec/privkey.go:NewPrivateKey", "wire/common.go:RandomUint64"]}
{"id": "C85", "title": "The text of an error names the check that failed", "statement": "When a proof does not verify, the text of the error is that of the first check, in the documented order, that does not hold, with the numbers compared in decimal where it has any; provers report which relation does not hold, or the words of the random source; ParsePubKey and ParseSignature name the first requirement the bytes do not meet. No text of a prover has a secret in it, except that of the range prover for a value that is too big, which has the value. An error of the random source inside the inner proof of the ABC prover is not passed on.", "quantifier": "all proofs, statements, secrets, draws (which may fail), byte strings and hash functions", "why_tests_cant": "which of several failing checks is reported is a matter of every combination of failures, and that a text never depends on a secret is a statement about all secrets", "anchors": ["crypto.go:errorProof", "crypto.go:Error", "crypto.go:proofStatus", "gspfs.go:Verify", "equivalence.go:Verify", "consistency.go:Verify", "disjunctive.go:Verify", "abc.go:Verify", "abc.go:NewABCProof", "inequality.go:NewInequalityProof", "rangeproof.go:Verify", "rangeproof.go:NewRangeProof", "btcec/pubkey.go:ParsePubKey", "btcec/signature.go:parseSig"]}
{"id": "C86", "title": "How long serialised proofs, signatures and messages are, and what the length tells", "statement": "A proof that a prover returned has, serialised, at most 200 (GSPFS, equivalence), 234 (consistency), 334 (disjunctive) or 835 + n bytes (ABC and inequality, for a value or difference of n bytes), and a range proof at most 6661 bytes less 32 for every 1 bit of the value, and these lengths occur. A DER signature has 8 to 71 bytes, a public key 65 or 33, an encrypted message 134 + 16 * floor(n / 16). The length of range, ABC and inequality proofs depends on the secret: two range proofs without leading zero bytes have the same length exactly if the values have the same number of 1 bits, and the response l of an ABC proof grows with the value.", "quantifier": "all secrets, draws, statements, hash functions and keys with which the provers succeed", "why_tests_cant": "a bound on the length must hold for every draw, and numbers with leading zero bytes, which are shorter, are rare; that a length is a function of the number of 1 bits is a statement about all values", "anchors": ["gspfs.go:Bytes", "equivalence.go:Bytes", "consistency.go:Bytes", "disjunctive.go:Bytes", "abc.go:Bytes", "rangeproof.go:Bytes", "rangeproof.go:NewRangeProof", "abc.go:NewABCProof", "inequality.go:NewInequalityProof", "crypto.go:WriteECPoint", "crypto.go:WriteBigInt", "wire/common.go:WriteVarBytes", "btcec/signature.go:Serialize", "btcec/pubkey.go:SerializeCompressed", "btcec/ciphering.go:Encrypt"]}
{"id": "C87", "title": "A forger of unlimited power needs many questions to the hash function", "statement": "If the hash function answers every new string with 32 random bytes, a forger that asks it q times, whatever it does otherwise, finds an accepted equivalence proof of a given false statement with a chance of at most (q+1) * 4*33^3 / 2^256, and of a false statement of its own choice with at most (q+1) * 4*33^11 / 2^256. A forger that finds GSPFS, disjunctive or consistency proofs with chance w, run again with fresh answers from the question about its proof on, yields the logarithm of the statement, of one of the two statements, or an opening of the commitment with a chance of at least w^2 / (33^k * (q+1)) - d * w / 2^256 (k = 1, 3, 3; d = 4, 2, 2). Run again twice, a forger of consistency proofs yields an opening whose blinding also makes the token up to sign, and a forger of ABC proofs the numbers a, k, l behind them, with a chance of at least (w - 4*K/2^256)^3 / K^2, where K = 33^3 * (q+1) and 33^7 * (q+1).", "quantifier": "all forgers (adaptive, randomised by fixing their coins, of unlimited power), numbers of questions, statements and answers of the hash function", "why_tests_cant": "it ranges over all forgers and compares the number of 256^(32*(q+1)) possible answers of the hash function", "anchors": ["equivalence.go:Verify", "gspfs.go:Verify", "disjunctive.go:Verify", "consistency.go:Verify", "abc.go:Verify", "crypto.go:GenerateChallenge"]}
{"id": "C88", "title": "Many proofs together tell an observer nothing it could not have made up itself", "statement": "If the hash function answers every new string with 32 random bytes and the prover's draws are uniform below N, an observer of unlimited power that asks the hash function q times and sees n GSPFS, equivalence or consistency proofs, of statements and secrets of its choice, in any order and each step depending on the earlier ones, tells them from proofs made without the secret with an advantage of at most n*(q+n) * 33^k / N (k = 1, 3, 3).", "quantifier": "all observers (adaptive, of unlimited power), numbers of questions and proofs, statements, secrets, answers of the hash function and draws", "why_tests_cant": "it ranges over all observers and compares the numbers of 256^L * N^n possible answers and draws", "anchors": ["gspfs.go:NewGSPFSProofBase", "equivalence.go:NewEquivalenceProof", "consistency.go:NewConsistencyProof", "crypto.go:GenerateChallenge"]}
{"id": "C89", "title": "What Decrypt, RecoverCompact, ReadVarInt and Sign report, and that Decrypt is no padding oracle", "statement": "Decrypt checks the length, curve number, coordinate lengths, the sender's point, whole blocks, the MAC and the padding in this order, and the error text is that of the first check that fails; a message with a wrong MAC gets an answer that depends neither on the private key nor on the cipher. RecoverCompact, ReadVarInt and Sign likewise report the first failing check with the documented text, ReadVarInt with the value, first byte and minimum in it.", "quantifier": "all inputs (any length and bytes), private keys, block ciphers and hash functions", "why_tests_cant": "it ranges over all byte strings, keys and ciphers; a padding oracle is a difference on some tampered message among 2^(8n)", "anchors": ["btcec/ciphering.go:Decrypt", "btcec/signature.go:RecoverCompact", "btcec/signature.go:signRFC6979", "wire/common.go:ReadVarInt"]}
