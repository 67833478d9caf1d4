# Formal model of mit-dci/zksigma in Rocq (Coq 8.16.1)

## Aim and shape

Every function of the three Go packages (`zksigma`, `btcec`, `wire`) is modelled
as a total, computable Gallina function over `Z`, lists, options and small
records.  Theorems are stated against small separate specifications (`Spec*.v`),
and closed by lemmas proved in other files (`*Proofs.v`).

| kind of file | contents |
|--------------|----------|
| `Go`, `Big`, `Sha256` | Go run-time and standard-library behaviour the code relies on |
| `Wire`, `FreeList`, `Crypto`, `Zksigma`, `Gspfs`, `Equivalence`, `Consistency`, `Disjunctive`, `Abc`, `Range`, `RangeConc`, `Field`, `Koblitz`, `PubKey`, `Signature`, `Ciphering`, `Precompute` | the model: one file per source file (`Abc` also holds inequality.go, `PubKey` also privkey.go, `Precompute` holds gensecp256k1.go and precompute.go) |
| `ApiMem`, `KoblitzMem`, `KoblitzConc`, `FieldMem`, `KoblitzWord` | the same functions as code on pointers and on single words, with interleaving |
| `Errors` | errorProof, proofStatus and the functions of zksigma that return an error, with the texts; the texts of the parsers of btcec |
| `Text`, `Init`, `Alloc`, `Reader`, `Rand` | hexadecimal texts and genprecomps.go; initS256, S256 and sync.Once; the memory decoders ask for; arbitrary readers and writers; drawing from the bytes of the random source |
| `Spec`, `Spec*` | the specifications, one per group of properties |
| `Prop*` | the property theorems, each with `Print Assumptions` and an `Example` of a concrete case |
| the rest | proofs |

Conventions of the model

* A Go `panic` (nil dereference, index out of range, negative or huge
  allocation, division by zero) is the constructor `Panic` of the result type
  `R`; `error` results are ordinary values.
* `*big.Int` that may be nil is `option Z`; a proof pointer that may be nil is
  an `option`.  Every method of `*big.Int` panics on a nil receiver or argument,
  as in the Go of this code's time.  (Later versions let `Cmp` compare a nil pointer
  with itself; it makes a difference only when both points compared have nil X.)
* A draw of the random source is an explicit argument, `option Z` or bytes:
  `Some u` is a successful draw, `None` a failure of the entropy source.
  Theorems quantify over it.
* A hash function is a universally quantified parameter wherever the statement
  does not depend on which one it is.  The one place where the actual SHA-256
  matters (the generators that `init` and the table generator derive) uses
  `Sha256.v`, written from FIPS 180-4.
* Fixed-width integers are `Z` with explicit `mod 2^32` / `mod 2^64`.
* Loops without a bound in the code take fuel; running out of fuel is a result
  of its own (`None`), never confused with an answer.
* Goroutines, channels and shared buffers are transition systems; a theorem
  about them quantifies over all interleavings.

## Layers

1. `Spec.v`: the affine group of y^2 = x^3 + 7 over the integers modulo P,
   identity written (0,0) as the code does; `smul` is iterated addition.
2. Number theory: primality of P and N by Pocklington certificates checked in
   the kernel; associativity of the group law by field identities; the group is
   cyclic of order N, generated by G.
3. `wire`: variable-length integers and byte strings, writers that fail, the
   buffer free list under concurrency.
4. `btcec`: 10x26-bit field arithmetic at word level; Jacobian formulas;
   decomposition of scalars, NAF, scalar multiplication, table multiplication;
   generation and loading of the tables; public keys, DER/BER signatures, ECDSA
   with RFC 6979, public-key recovery, ECDH and ECIES.
5. `zksigma`: points, commitments, challenges, the prover, verifier and codec of
   each of the seven proofs.
6. Concurrency: workers and result channel of range proofs; the free list.
7. Pointers: the curve arithmetic on field variables (KoblitzMem.v, KoblitzConc.v)
   and on their single words (FieldMem.v, KoblitzWord.v), and the zksigma package on integers (BigMem.v, ApiMem.v), alone and interleaved.

The layers are connected: `C51_curve_ok` proves that the modelled btcec curve
object is a `curve_ok`, the assumption under which layer 5 is stated; `C59_start`
proves it for the object the program builds at start-up from generated tables.

## Properties

All properties of properties.jsonl are covered; MANIFEST.json names the theorems.
`_refuted` marks a theorem proving that the code does not do what its user
expects; the statement in properties.jsonl then says what holds instead.

| id | modelled | how it is proved |
|----|----------|------------------|
| C01-C05, C58 | wire/common.go over byte lists and failing writers | case analysis on the size class, little-endian arithmetic; the limit of ReadVarBytes refuted for every limit |
| C06-C08 | crypto.go Write/Read, six Bytes/FromBytes | composition of readers and writers; crash and error-loss witnesses |
| C09 | free list as a transition system, any number of goroutines | inductive ownership invariant; a ranking function for termination |
| C10-C13 | ECPoint methods | refinement to the group; X-equality is equality up to sign |
| C14-C15 | GenerateChallenge, Bytes | unfolding; an explicit collision for every hash |
| C16-C19 | KeyGen, CommitR, VerifyR, PedCommit, PedCommitR, Open | arithmetic in the exponent |
| C20-C21 | init, generateH2tothe | computation with the concrete SHA-256 |
| C22-C25 | gspfs.go | completeness; extractor; forgery with another base; bijection of transcripts |
| C26 | all provers | case analysis |
| C27-C31 | equivalence.go, consistency.go | completeness; extractor from several transcripts because of the sign slack |
| C32-C34 | disjunctive.go | completeness; OR extractor; the side and the secret are visible |
| C35-C40 | abc.go, inequality.go | completeness; extractor; leaks; false accepting proof; crashes |
| C41-C43, C45 | rangeproof.go | ring equations; bit decomposition; extractors for both forks of a ring; rewinding at the common challenge when the prover may change the ring's commitment: pigeonhole over the points hashed before |
| C44 | rangeproof.go goroutines and channels | invariant over every interleaving, deadlock freedom, ranking function |
| C46 | all verifiers | totality by structural lemmas over every complete proof; crash witnesses |
| C47 | all verifiers | shift of a response by N |
| C48-C49 | btcec/field.go | value of ten words, bounds propagated through every intermediate word |
| C50-C53 | btcec/btcec.go | field identities; loop invariants over bytes and bits; lattice identities |
| C54 | btcec/pubkey.go, privkey.go | byte-level inversion, square roots modulo P |
| C55 | btcec/signature.go parsing | exact characterisation of the accepted and of the crashing inputs |
| C56 | btcec/signature.go signing | ECDSA algebra on top of C51 |
| C57 | btcec/ciphering.go | CBC and padding inversion for any block cipher |
| C59 | btcec/gensecp256k1.go, precompute.go, initS256 | invariant over the windows; word round trip |
| C60 | btcec/gensecp256k1.go | Euclid invariant; Newton iteration, including exactly where it does not end |
| C61, C62 | rangeproof.go, abc.go, inequality.go, disjunctive.go provers | closed form of the published responses; size bounds on the unreduced integers |
| C63 | btcec/signature.go IsEqual, Serialize, Verify | ECDSA algebra (C56) and DER inversion (C55) |
| C64 | all six provers, encoders, decoders, verifiers | honest proofs are well formed, composed with C07 and completeness |
| C65 | the six decoders and encoders | every field read is one the writer accepts; witnesses for encodings that are not unique |
| C66 | verifiers, Mult, the parameter H | explicit forged proofs from public values, checked by the acceptance lemmas of each verifier |
| C67 | ABC, disjunctive and consistency verifiers | C36 and C33 composed with binding up to the logarithm of H'; explicit proofs when a hypothesis is dropped |
| C68 | range and GSPFS verifiers, Equal | the Y coordinate is eliminated from the verdict; explicit off-curve proofs |
| C69 | all provers with failing draws | case analysis on the draws; the nil slot left by a failed goroutine is followed to the crash |
| C70 | signRFC6979, nonceRFC6979, mac over the SHA-256 model | SpecRfc6979.v restates HMAC and the RFC search; the signing loop is related to the search by induction on the rejected candidates |
| C71 | PedCommitR, CommitR, Add, Sub, Mult, KeyGen, the equivalence prover and verifier | induction on the history for the sums; C27/C28 for one audit; the two values of H for KeyGen |
| C72 | btcec/btcec.go a second time, as statements on a memory of variables reached by pointer | a checked discipline (no variable is read after a write through a pointer that may be its own) gives the functions of Koblitz.v; frame lemmas; loop invariant for ScalarMult |
| C73 | the same methods as code interrupted before every access; goroutines on one memory | ownership of stacks (a predicate on code), an invariant over schedules, C72 for the result of a call run alone |
| C74 | the zksigma package a second time, as code on a heap of integers reached by pointer | simulation: each function against its value-level model, with an invariant "what existed stays"; a table of all calls; induction on programs |
| C75 | goroutines that run such programs on one heap | code is confined to its own and shared integers; an invariant over schedules; results are local |
| C76 | btcec/field.go a second time, as loads and stores of single words with a reduction after every machine operation | execution of each method on a memory with arbitrary (possibly equal) pointers; C48 for the numbers |
| C77 | btcec/btcec.go a third time, on the words of C76, goroutines interrupted before every load and store | simulation of C73's code by C77's; ownership of stacks and an invariant over schedules |
| C78 | the words loaded and stored by the code of C76 and C77, in order | the sequence of each field method computed once for all memories; for scalar multiplication, induction over the digits: the accesses of two runs part at the first digit in which the scalars differ |
| C79 | `fieldVal.String` and `SetHex`, `fromHex`, and `genprecomps.go` on texts as lists of bytes, with hex, base64, %q and string literals written out and the compression a parameter | induction over the text for each coding; the generated files are read back and composed with C59 |
| C80 | `initS256` statement by statement from the literals of the source, and `S256` with the documented `sync.Once`, any number of calls interleaved step by step | an invariant over all reachable states (one holder of the lock, the object is the result of the statements run so far); a decreasing measure for termination |
| C81 | the readers and the six proof decoders again, each returning beside its result the bytes it asked for with `make`; a theorem ties them to the decoders used elsewhere | cost bounds per read, composed along the decoders; the counterexamples are computed for every requested size |
| C82 | the five provers and `Sign`, run twice with a shared draw or nonce, and once with a known one; the observer only divides modulo the group order | the provers' responses are read off for arbitrary points and parameters; linear algebra modulo the order |
| C83 | `io.Reader` and `io.Writer` as arbitrary scripts of answers (any portions, errors beside data, errors that come and go, silence), io.ReadFull's loop, and the reading and writing functions over them | the plain functions over bytes are the reference; one proof for every relation that io.ReadFull and sequencing respect |
| C84 | crypto/rand.Int and ecdsa's key drawing (Go 1.12) over the bytes of the source; KeyGen-style callers on those bytes; goroutines that share the source under any scheduler, which may depend on all bytes read so far | chances are stated by counting the byte strings; one bijection of byte strings for any two schedulers and any one-to-one change of the drawn numbers gives all the theorems |
| C85 | the error values of crypto.go and the functions that make them, written again with the text of each error; fmt and big.Int printing in decimal; the texts of ParsePubKey and parseSig | forgetting the texts gives the functions of the other properties (for all inputs); the text is that of the first check, in order, that does not hold; each text is reached by a concrete case |
| C86 | no new code: the serialisers, provers, key and signature formats and Encrypt of the other properties | the length of the bytes as a sum over the fields; bounds from the sizes of the numbers the prover makes; concrete runs that reach the bounds, by a table of multiples of G |
| C87 | no new code: the verifiers of the other properties; the hash function as answers read from a tape, one per string, and a forger as any tree of questions to it | the number of tapes on which a forger succeeds, by induction over its questions; the number of pairs of tapes on which rewinding it succeeds, by Cauchy-Schwarz over the tapes, and the number of triples for rewinding twice by the mean of cubes; extractors of C23, C28, C30, C33, C36; 33^(2k-1) ways to cut a transcript of k points |
| C88 | no new code: the provers of C25 and C31; an observer is any tree of questions to the hash function and of proofs it is shown | the number of tapes and draws on which it says yes to real and to simulated proofs, by induction over the tree: draws are shifted by a bijection, and few draws lead to a string asked before |
| C89 | the texts of Decrypt, RecoverCompact, ReadVarInt and Sign (Reports.v) | case analysis along the checks, with the last byte of CBC decryption by induction over the blocks; a wrong MAC is found before anything is decrypted |

## What is modelled and what is not

Modelled, function by function, with the lines cited at each definition:

* `crypto.go`, `gspfs.go`, `equivalence.go`, `consistency.go`, `disjunctive.go`,
  `abc.go`, `inequality.go`, `rangeproof.go`, `zksigma.go`: all functions except
  `logStuff`, `errorProof.Error` and `proofStatus` (text for humans).  Error
  values are identified by kind, not by message.  Crypto.v, Gspfs.v, ... treat a
  `*big.Int` as the integer it points to; ApiMem.v writes the same functions as
  code on pointers, and C74 proves that the two agree and that nothing is
  written that anyone else can see.
* `wire/common.go`: all functions.
* `btcec/field.go`: all methods (`String` and `SetHex` in Text.v).  Field.v writes the methods as functions on values; FieldMem.v
  writes the same methods as loads and stores of words, and C76 proves that the
  two agree.
* `btcec/btcec.go`: all functions; `Params` and `QPlus1Div4` are the constants they
  return.  Koblitz.v writes the methods as functions on values;
  KoblitzMem.v writes the same methods as statements on pointers, and C72 proves
  that the two agree.
* `btcec/pubkey.go`, `privkey.go`, `signature.go`, `ciphering.go`: all functions
  except the type conversions `ToECDSA`.
* `btcec/gensecp256k1.go`, `precompute.go`, `genprecomps.go`: all functions, the
  last without the operating system's files and with zlib as a parameter.

Not modelled:

* `examples/main.go`, which refers to `zksigma.ZKCurve`, a name the package does not
  declare, and so does not compile.
* The two table texts in `secp256k1.go` and `secp256k1H.go`, and zlib through which
  they are read.  A table is a parameter of the curve object; the
  theorems about base multiplication state what its entries must be
  (`table_ok`), and C59 proves it of every table the generator produced.
* Go's standard library, beyond the following behaviour taken from its
  documentation and written out in the model: `math/big` (arithmetic, `Bytes`,
  `Exp`, `ModInverse`, `Div`), `io.ReadFull`, `bytes.Buffer`, `encoding/binary`,
  `crypto/hmac`, CBC mode, `crypto/ecdsa.Verify` (the SEC 1 equation),
  `crypto/rand`.  SHA-512 and AES appear only as parameters (any function with
  64-byte results; any keyed family of invertible block functions).
* Physical memory exhaustion, timing and the scheduler's fairness.  Interleavings
  are at the granularity of channel operations, of the single bytes of the shared
  buffers (C09) and of single field variables (C73) and single 32-bit words (C77) of
  the curve arithmetic (both also exclude data races), and of single `*big.Int` variables (C75).
  Callers that themselves write to an integer while another goroutine uses it are
  not modelled.

Cannot be expressed in a model of this kind: the computational hardness of the
discrete logarithm and the strength of the hash functions.  Soundness is
therefore stated as an extractor (special soundness), and, for a hash function that
answers at random, as a bound on the number of answers with which a forger succeeds or
by which rewinding it yields the secret (C87); zero knowledge is stated as an exact
bijection between real and simulated transcripts, and for the same hash function as a
bound on what an observer of many proofs can tell from simulated ones (C88).

## Disagreements between the code and what its users expect

Each is a theorem named `..._refuted` with a witness:
ReadVarBytes ignores its limit and can crash (C05); decoders crash or lose errors
(C08); Equal ignores Y (C10), hence soundness only up to sign (C28, C30); Mult on
-G and H (C13, C22); ambiguous transcripts (C15); the logarithm of H is known
(C20); Open accepts the opposite opening (C19); GSPFS does not bind its base (C24);
disjunctive proofs show their side and can show their secret (C34); ABC proofs
leak and do not bind the token (C37), the right-hand prover checks nothing (C26);
inequality of equal values is accepted (C39); crashes on equal operands and on a
zero key (C40); the range prover accepts 2^40 and cannot prove it (C41); large
digests break range proofs (C43); goroutines leak on nil entries (C44); the number
of bits of a range proof is not checked (C45); verifiers crash on incomplete
proofs (C46); proofs are malleable (C47); coordinates over 256 bits crash (C50);
the public-key prefix 5 is accepted (C54); signature parsing crashes (C55);
signing with x = N, recovery without verification, recovery of R = 0 (C56);
shared secrets lose leading zeros, padding bytes are unchecked, Encrypt writes
into its caller's slice (C57); a wrong table is loaded without complaint (C59);
sqrt does not end on k^2 - 1 (C60); a range proof shows the value and openings of
its bit commitments (C61); ABC proofs show the private key and whether the value is
0, inequality proofs show the order (C62); (R, N-S) verifies with (R, S) (C63);
many byte strings decode to one proof (C65); Mult's replacement of H by H', with the
public logarithm of H, gives accepted proofs of false statements for range,
equivalence, consistency and ABC proofs (C66); an ABC proof says nothing about the
value when the token is not known to be consistent or when the blinding is 0 (C67);
range proofs are accepted for the opposite commitment, and points off the curve are
accepted (C68); a failing random source crashes the range prover (C69);
keys made by KeyGen(curve, H) do not work with the audit and ABC provers (C71);
the Base of a proof, a negated point and the point beside an error share integers
with the parameters, the operand and the package variable Zero (C74); the memory
accesses of a scalar multiplication reveal the scalar (C78); SetHex crashes on more
than 64 digits and silently cuts a text at the first pair that is not hexadecimal (C79); after a failed
construction S256 panics once and then returns an incomplete curve (C80); nine bytes make
any decoder ask for up to 2^48 bytes, and thirteen decode to a range proof of any length (C81);
a stream cut inside a point or a number gives io.EOF, as if it had ended properly (C83);
the range prover's error text has the secret value in it when it is too big, and the ABC prover
hides an error of the random source (C85); the length of a range, ABC or inequality proof
depends on the secret value (C86).

## Trusted base

* Coq 8.16.1's kernel, including the virtual machine used by `vm_compute` (coqchk
  re-checks everything without it).
* Axioms: none.  Under each property theorem `Print Assumptions` prints "Closed
  under the global context".  coqchk lists, for the library as a whole, seven
  constants of `Coq.ssr.ssrunder` (`Under_rel.*`): they are the opaque module
  `Under_rel` of Coq's own standard library, loaded with its `ssreflect` plugin
  files, and no theorem here depends on them.
* The reading of Go in the comments of the model, and the transcription of the
  constants.
* No functors, module types, `Declare Module`, plugins or disabled kernel checks
  are used.

## Tests of the theorems

`seeded/LOG.jsonl` records wrong programs: for each, the model definition edited,
the edit, the claim it breaks, and which theorems stopped proving.
