# Formal model of deatil/go-cryptobin in Rocq (Coq 8.16.1)

## Conventions

* Sources live in `rocq/theories`. Each area is split into `XModel.v` (executable
  Gallina transcription of the Go functions; every definition cites file:lines),
  `XSpec.v` (a small specification that does not use the model: what the standard
  or the documentation says), `XProofs.v` (lemmas) and `XProps.v` (the property
  theorems `Cnn_...`, each followed by `Print Assumptions` and, at the end of its
  group, an `Example Cnn_instance` showing that a concrete case meets the hypotheses).
* Bytes and machine words are `Z`; a byte string is `list Z`; `bytes_ok l` says
  that every element is in `[0,256)`. Machine wrap-around is written explicitly
  as `mod 2^w`. Lengths and indices are `nat`. Go `int` is 64 bits wide.
* Go outcomes are `Ok v | Err | Panic`. Loops that may fail to terminate take
  fuel; the fuel is shown sufficient, or running out of it is an explicit value.
* A block cipher is an arbitrary record `{bsz; enc; dec}`. Theorems about modes
  quantify over every cipher satisfying `lawful` (block length preserved and
  `dec (enc b) = b` on blocks). Concrete ciphers of the repository are proved
  lawful separately (C26 and following).
* `dst == src` aliasing is modelled by an explicit `inplace` flag where the code
  allows it; partial overlap is refused by the code (alias.InexactOverlap).
* A constructor that keeps state is modelled as a state machine; theorems about
  it quantify over every finite history of calls.
* Where the code violates a property a user would expect, a theorem called
  `..._refuted` exhibits or characterises the failure; the strongest true variant
  is proved beside it and the property's statement says exactly what holds.

## Method per property

| id | modelled | method |
|----|----------|--------|
| C01-C07, C31 | padding/*.go, all schemes | list induction; exact acceptance sets |
| C08-C10, C32, C33 | mode/{ecb,bc,pcbc,ige,ofbnlf,g3413cbc}.go | invariant over the block loop, lifted to call lists |
| C11, C12, C34-C39 | mode/{ofb,ofb8,cfb,cfb8,cfb1,cfb16,cfb32,cfb64,nofb,ncfb,gofb,gcfb,ocfb,g3413*}.go | refinement to an infinite keystream / per-byte recurrence |
| C13, C40 | mode/wrap.go, wrap_pad.go | inverse of one step, induction over 6n steps |
| C14-C19 | mode/{ccm,eax,ocb,ocb3,mgm,siv,hctr} | CTR involution plus MAC determinism; history invariants for caches; GF(2^n) arithmetic against carry-less polynomial multiplication |
| C20, C21, C42 | hash/cmac, hash/pmac, mac | refinement of the streaming digest to the one-shot function |
| C22 | fernet/fernet.go | decision rule; HMAC and AES as arbitrary functions |
| C23-C24 | bencode | mutual induction on value trees / on fuel |
| C25 | tool/bmp_string | list induction |
| C26 | cipher/idea | algebra modulo 65537, Euclid checked for all 65536 words, layer-by-layer inversion |
| C27 | cipher/* stream ciphers | refinement to keystream |
| C28 | hash/* | refinement of streaming digest to padded fold |
| C29-C30 | pubkey/{elgamal,egdsa} | modular arithmetic (Fermat, Euclid proved in NumLib) |
| C41 | tool/bytes | list induction |
| C43-C46 | cipher/{speck,simon,lea,threefish} | invertible layers, key schedules as folds; known-answer examples |
| C47-C49 | cipher/{rc2,rc5,rc6} | invertible layers; known-answer examples |
| C50-C53 | cipher/{hight,noekeon,gost,magma} | invertible layers; bitwise arguments; known-answer examples |
| C54-C58 | pubkey/{ecgdsa,ecsdsa,ecosdsa,ecfsdsa,eckcdsa,ecrdsa} | curve and digest abstract; the group laws are a hypothesis (`lawful_curve`), met by a 31-point curve checked exhaustively; congruences by setoid rewriting |

| C28, C59 | hash/{md2,sm3,has160,belt,bash,gost} | one invariant for the block buffers (what was written = whole blocks digested ++ bytes held), then each Sum by padding arithmetic; digests specified as iteration over the padded message, checked on published vectors |
| C60 | cipher/belt | round by round inversion, key words arbitrary; published vector refutes conformance |
| C61 | hash/gost/gost34112012256 key trees | invariant: cached key = derived key of the cached number; HMAC-Streebog concrete |
| C62, C63 | hash/rabin | tables proved to be remainders over GF(2), the window ring as an invariant; the circular buffer of the chunker refines the stream: whatever the read lengths, byte head+i of the buffer is byte head+i of the stream; the shortest stopping prefix by induction on the rolling loop |
| C27 | cipher/{trivium,rabbit,kcipher2,salsa20,hc} | invariant: the buffered bytes are the next keystream bytes; generators given separately as recurrences on indices (HC tables, Trivium bits) and proved equal to the in-place updates; published vectors refute Rabbit |
| C64-C67 | gm/zuc | LFSR steps proved to be the residues modulo 2^31-1 in 1..2^31-1; MAC invariant: K0 is the window of the keystream at the current bit, T the XOR of the windows at the set bits; ZucMac as the one-word case on the keystream with its first word doubled |
| C68, C69 | cipher/grain | 32 bits at a time against the bit-serial registers (bit i of word t is register bit 32t+i); the tag as a sum of register windows at the set message bits, so header, data and the half step at an odd boundary are one bit string |
| C70 | cipher/enigma | invariant of the reflector loop: slots below k are free or paired with one above, and the number of free ones is even, for arbitrary random choices; rotor as a permutation list |
| C71, C72 | cipher/{spritz,wake} | permutation invariant; keystream as iterated drips; WAKE four bytes at a time against the word-wise autokey |
| C73-C79 | kdf/{pbkdf,pbkdf2,gost_pbkdf2,kbkdf,kdftree,gost_prfplus,smkdf,pgp_s2k,bcrypt_pbkdf} | hash and PRF arbitrary; loops with fuel, so that ending and never ending are both statements; keys described byte by byte; loop invariant: the bytes written so far are those of the blocks; slices of one memory for gost_pbkdf2 |
| C80-C87 | pubkey/lms | hash arbitrary with N output bytes; coefficients as digits, checksum argument for all pairs of digests; in-place tree filling by an invariant over the leaves done so far; histories as lists of operations with save and load; Merkle binding with explicit colliding inputs; HSS by a chain-of-trust invariant over the levels |
| C88-C95 | gm/sm2 | curve as a lawful cyclic group of cofactor one (met by the toy curve toy2), hash and ASN.1 arbitrary; random source as a byte list with a retry loop; signing equation solved in Z/N; exact acceptance and exact panics by inverting the decoder; both sides of the exchange reduced to multiples of the base point |
| C96-C97 | cipher/fpe/ff1, cipher/fpe/ff3 | AES arbitrary with 16-byte blocks, big.Int string conversion modelled character by character; rounds reduced to a numeric Feistel network over r^u and r^v, inverted by induction over the rounds; standard given as recursion on numeral lists; no-panic by a bound on every intermediate number |
| C98-C101 | tool/math, cipher/cascade, cipher/lion | int64 arithmetic wraps in the model, cofactor bounds by induction show it never does; Euclid with fuel above the argument; rationals as pairs; cascade over two arbitrary lawful ciphers; Lion over an arbitrary hash and stream cipher, inverted round by round |
| C102-C104 | pubkey/bip0340, pubkey/bign, pubkey/ecdsa (DSign) | curve as a lawful cyclic group, digest and block cipher arbitrary; verification inverted to the signing equation in Z/N; deterministic nonces related to a relational reading of the standard by induction over the generator steps |
| C105-C107 | pubkey/sdsa, pubkey/rabin | exponents modulo the order of g; attempts by induction with the hash input carried along; square roots through Fermat, Chinese remainders through extended Euclid; primality test reduced to the Euler criterion, -1 shown a non-square by a prime factor that is 3 modulo 4 |
| C108-C111 | pubkey/gost | big.Int formulas modelled with ModInverse leaving its receiver; the chord-and-tangent law is the hypothesis, the code's formulas are proved equal to it by uniqueness of the slope; double-and-add by induction over the bits with bounds excluding opposite summands; verification inverted in Z/q; Edwards maps through a shared relation and field cancellation |
| C112-C115 | pubkey/kcdsa | digest arbitrary with its size and block size; bit cutting as reduction modulo powers of two; verification inverted in Z/q; PPGF loop by induction over the bytes left; primality test an arbitrary predicate; retry loops by invariant; addition with carry as le_val arithmetic |
| C116-C117 | pubkey/dh/dh | exponent identities modulo P; retry loop by invariant; group constants compared by evaluation with their definition from the binary expansion of pi; compositeness by a factor |
| C118-C120 | pubkey/ecies | curve as a lawful cyclic group, digest and cipher arbitrary; counter increments as addition modulo 2^32; key derivation loop related to the block-wise reading; Decrypt inverted into point, text and tag |
| C121-C125 | cryptobin/crypto | values with a heap of Configs and arrays behind slices; round trips composed from the padding and mode theorems; an invariant over all programs assigns every array and Config to the New it descends from; appending past the end of a slice spares all slices that are not longer |
| C126-C130 | rand | states related to numbers (Hash_DRBG) or pairs (HMAC_DRBG, CTR_DRBG) of an independent transcription of SP 800-90A; addition loops by induction over the bytes; filling loops by one lemma on the blocks written; histories by simulation; the padding defect as a congruence condition on lengths |
| C131-C136 | pkcs1, pkcs/pbes1, pkcs/pbes2 | parameters as decoded DER values; one lemma each for padded and unpadded modes relates encryption and decryption to the declarative mode; key derivations reduced to C74 and to iterated digests; tables checked by computation, acceptance inverted case by case |
| C137-C138 | ber | `BerModel` follows readObject and EncodeTo on offsets, with fuel for the recursion; `BerSpec` has the BER encodings of a tree as an inductive relation (mutual with sequences) and DER as a function. Mutual induction over the relation shows what is read; inversion of readObject gives the shape of every output and the panics; an inductive family of inputs gives the exponential growth. |
| C139-C141 | jceks (JKS) | readers and writers on byte lists, maps as partial functions; each reader is shown to invert its writer in both directions, entries by induction; histories by simulation with a list of entries with distinct aliases; the key stream loop by induction over blocks |
| C142-C146 | pubkey/rsa | `RsaModel` computes with integers, the blinding draws from a byte list and the CRT loop runs over any number of primes; `RsaSpec` is RFC 8017. Fermat per prime and divisibility by distinct primes give the key equation, an invariant over the primes done gives the CRT loop; blocks by the fixed-length big-endian form, the block loop by induction over the chunks |
| C147-C149 | passhash | `PwModel` follows the three packages on byte strings with Argon2 and PBKDF2 as parameters and a model of base64, Split and Atoi; `PwSpec` gives base64 as base-64 digits of a number and the three string formats. Base64 by induction over groups in both directions, numbers by the decimal lemmas of the bencode proofs |
| C150-C153 | BKS and UBER key stores | induction on the entry list; exact reader inversion; permutation of the map order; abstract cipher with its inverse law |
| C154-C156 | SM4, SHACAL-2, Skipjack | table equations checked for every byte and lifted by linearity; rounds undone one by one; register renaming as an invariant over the 64 calls; recurrence of the key schedule |
## Trusted base

Coq's kernel (coqc 8.16.1; coqchk is run as well), and the reading of the Go source recorded in the
comments of the model files. There are no axioms: `Print Assumptions` answers `Closed under the
global context` for every theorem listed below (the command stands after each of them in the
sources, so every build prints it again).

### What is modelled

Model file, and what its header says it covers:

* `ArxModel.v`: Model of the add-rotate-xor block ciphers cipher/speck, cipher/simon, cipher/lea and cipher/threefish: key expansion, Encrypt and Decrypt. The unrolled key expansions of Simon and Speck-128 are written as loops. The overlap check is not modelled.
* `BeltModel.v`: Model of /repo/cipher/belt and of the copy of the cipher in /repo/hash/belt/utils.go: the two differ only in the direction of the rotation inside G.
* `BencodeModel.v`: Model of /repo/bencode/{bencode,encode,decode}.go for values of type any: integers (int64 or big.Int), strings, []any and map[string]any, and for the raw type Bytes. strconv.AppendInt and big.Int.String are [decimal]; struct fields, tags and the other Go types are not modelled. The recursion of the decoder takes fuel (PFuel when it runs out, which is shown not to happen).
* `BerModel.v`: Model of ber/ber.go: Ber2der, the normalisation of BER to DER used by pkcs7 and pkcs12. Offsets and lengths are natural numbers (a length of at most four octets with the top bit clear and an offset into a slice fit in an int); the unused tag number and encodeIndent are left out; bytes.Buffer never fails. Indexing past the end is [Panic]. Recursion and loops carry [fuel]; running out of it is [Panic] too, which C138 shows not to happen. The limit of the goroutine stack is not represented.
* `BigModel.v`: Model of the part of Go's math/big, crypto/rand and io that the public-key packages use. None of this code is in the repository: the definitions fix how its documented results are represented. A [big.Int] is a [Z]; an [io.Reader] is the finite list of the bytes it still holds, and reading past its end is the reader's error.
* `BksModel.v`: Model of the BKS and UBER key stores: jceks/bks.go, jceks/bks_entry.go, jceks/bks_encode.go, jceks/bks_decode.go, jceks/uber_encode.go, jceks/uber_decode.go, over the readers and writers of jceks/binary.go in [JksModel]. Strings are byte lists and a time is a number of nanoseconds since 1970. derivedHmacKey is the parameter [K], HMAC-SHA-1 is [HM], SHA-1 is [H]; CipherBlockCBC.encrypt and decrypt are [seal] and [unseal] for Triple DES and [seal2], [unseal2] for Twofish, with the salt as an argument. The random source does not fail. The map of the entries is a list with distinct aliases; [order] is the order in which a range statement visits it. Only the Bytes variants of the Add functions are modelled, and Recover up to the parsing of PKCS#8 and X.509 keys.
* `BlockModeModel.v`: Model of the block modes of /repo/mode: ecb.go, bc.go, pcbc.go, ige.go, ofbnlf.go, g3413cbc.go. A [cipher.Block] is an arbitrary record. [dst] and [src] are either disjoint or the same buffer ([inplace]); the loops advance both by one block per turn, so the only way aliasing matters is that reading the current [src] block after the current [dst] block was written yields the written bytes. The optional fast paths ([b.(bcEncAble)] etc.) are not modelled: no cipher in the repository implements those interfaces.
* `BmpModel.v`: Model of /repo/tool/bmp_string/bmp_string.go, on Go strings as byte strings. The loop over a string ([for range], Go language specification) and unicode/utf16 of the standard library are modelled, too.
* `CcmModel.v`: Model of /repo/mode/ccm/ccm.go. The hook [ccmAble] is not modelled (no cipher in the repository has it). int is 64 bits wide.
* `CombModel.v`: Model of tool/math (gcd/*.go, lcm/lcm.go, math.go), cipher/cascade/cascade.go and cipher/lion/lion.go. int64 arithmetic wraps; a big.Rat is a pair of numerator and positive denominator, not necessarily in lowest terms. Slices passed to Encrypt and Decrypt are disjoint or identical (the overlap check panics otherwise and is not modelled).
* `CurveModel.v`: Model of the interfaces the elliptic-curve signature packages are written against: crypto/elliptic.Curve (its parameters, IsOnCurve, Add, ScalarMult, ScalarBaseMult), hash.Hash and the nonce and key generation shared by pubkey/{ecgdsa,ecsdsa,ecosdsa,ecfsdsa,eckcdsa,ecrdsa,bign}. Simplification: a curve is any record of functions on affine coordinates, (0,0) being the point at infinity as in crypto/elliptic; what they compute is assumed only where a theorem says [lawful_curve]. Nil keys and nil curves, which the code refuses, are not represented.
* `DhModel.v`: Model of pubkey/dh/dh: dh.go (GenerateKeyWithGroup, GeneratePublicKey, ComputeSecret, Check) and group.go (GetMODGroup). big.Int.Exp of the standard library is [big_exp]. Nil parameters and IsSafePrimeParameters, which only calls ProbablyPrime, are not represented; pkcs8.go is not modelled.
* `DrbgModel.v`: Model of rand: drbg/utils.go, drbg/hash.go, drbg/hmac.go, drbg/ctr.go, prng/prng.go and keygen/keygen.go. A hash is a function [H] of the bytes written since Reset, with Size [hsz]; hmac.New of the standard library is a function of key and message; the constructor of the block cipher given to NewCTR is a parameter. Arrays of fixed size are lists of that length. Lengths of Go slices are natural numbers without bound. A method that returns an error leaves the generator as it was, as in the code, where the checks come first.
* `EaxModel.v`: Model of /repo/mode/eax/eax.go.
* `Ec2Model.v`: Model of pubkey/bip0340 (SignUsingKToRS, SignToRS, VerifyWithRS, SignBytes, VerifyBytes, BatchVerify), pubkey/bign (adata helpers, deterministic nonce, SignToRS, VerifyWithRS, SignBytes, VerifyBytes) and pubkey/ecdsa/decdsa.go (DSign, DSignBytes, rfc6979Nonce). The hash object is represented by the bytes written to it since New or Reset. The ASN.1 forms (Sign, Verify, DSignASN1) are library code and not modelled: they hand any pair of integers to VerifyWithRS. Nil keys are not represented. BELT (hash/belt) enters bign as an arbitrary digest [bh] and an arbitrary block encryption [bl theta block]; crypto/hmac by its definition.
* `EcSigModel.v`: Model of pubkey/ecgdsa, pubkey/ecsdsa, pubkey/ecosdsa, pubkey/ecfsdsa, pubkey/eckcdsa and pubkey/ecrdsa: SignToRS, VerifyWithRS, SignBytes and VerifyBytes. The hash object is represented by the bytes written to it since New or Reset, so that a [goto Retry] which writes again without Reset is seen as such. The ASN.1 form of a signature (Sign, Verify) is golang.org/x/crypto/cryptobyte and not modelled: it hands any pair of integers to VerifyWithRS.
* `ElgModel.v`: Model of pubkey/elgamal (encryption, homomorphic product, signatures, key generation) and pubkey/egdsa. The ASN.1 wrappers (EncryptASN1, SignASN1, ...) only marshal the pair of integers with the standard library and are not modelled; Equal, XML and PKCS encodings are not modelled. rand.Prime and ProbablyPrime (elgamal.go:500-508) are not modelled: the key generator below starts from the numbers they return.
* `FeedbackModel.v`: Model of the cipher-feedback stream modes of /repo/mode: cfb.go, cfb8.go, cfb1.go, cfb16.go, cfb32.go, cfb64.go, ncfb.go, g3413cfb.go, gcfb.go, ocfb.go. A call is (dst, src): the previous contents of dst matter only for cfb.go and g3413cfb.go, whose register copies read past the bytes just written. For an in-place call dst and src are the same memory: the same initial contents, and (g3413cfb only, flag [ip]) src reads after the XOR see the new bytes.
* `FernetModel.v`: Model of /repo/fernet/{fernet,utils,key}.go. AES, HMAC-SHA256 and the base64 coder of the standard library are parameters. A time.Time is (seconds since year 1 as int64, nanoseconds), as in package time; monotonic clock readings do not matter here (the token time has none).
* `FlModel.v`: Model of cryptobin/crypto (the chained API): cryptobin.go, encrypt.go, encrypt_multiple.go (BlockEncrypt, BlockDecrypt and the block ciphers' Encrypt and Decrypt), encrypt_mode.go, encrypt_padding.go, from.go, with.go, use.go, on.go, error.go, with tool/config, tool/error_event and tool/recover. Paddings and modes are the models of those packages. Values are copied on every call as in Go, but the Config and the arrays behind Errors and the list of handlers live in a heap. Simplifications: error texts are the two codes "returned" and "panicked"; the registry of ciphers [reg] maps an identifier to NewCipher of a block cipher, the stream ciphers of encrypt_multiple.go and the modes of the sub-packages are not represented; GCM of the standard library is a parameter; GenRandom and randomBytes are [rand] and do not fail; locks are not represented, each method is one step; WithConfig, SetConfig and WithErrors, which replace the Config or the list of errors, are not represented.
* `FpeModel.v`: Model of cipher/fpe/ff1/ff1.go and cipher/fpe/ff3/ff3.go, with the parts of math/big they use on strings (SetString, Text). AES is an arbitrary function [aes] of key and block. The floating-point expressions for the byte length b and for minLen and maxLen are parameters [fb], [mn], [mx]: theorems say what they need of them. A slice that is reversed in place is returned as the new content of the caller's slice. The error values are not distinguished.
* `G10Model.v`: Model of pubkey/gost: the curve arithmetic it implements itself (curve.go), GOST R 34.10 keys and signatures (gost.go), point encoding (marshal.go), VKO key agreement (vko.go) and the twisted Edwards coordinates (edwards.go). Simplifications: curve parameters are not negative and P, Q are positive; the ASN.1 signature form, the caching of the Edwards constants and nil arguments are not modelled; the digest of the KEK functions is any [hasher]. A [ModInverse] without result leaves its receiver unchanged, which [mod_inv_or] expresses.
* `Hash1Model.v`: Model of /repo/hash/md2, /repo/hash/sm3 (digest, the portable block function, state marshalling) and /repo/hash/has160. The assembly block functions of sm3 are not modelled.
* `Hash2Model.v`: Model of /repo/hash/belt and /repo/hash/bash.
* `Hash3Model.v`: Model of /repo/hash/gost: gost34112012 (Streebog, digest and state marshalling), gost341194, and the key trees and the KDF of gost34112012256. crypto/hmac of the Go library is modelled by its definition (RFC 2104).
* `HbufModel.v`: Model of the block buffer that the Write methods of /repo/hash/{md2,sm3,has160,belt,bash}/digest.go share.
* `HctrModel.v`: Model of /repo/mode/hctr/hctr.go. 64-bit words are numbers below 2^64.
* `IdeaModel.v`: Model of the block cipher cipher/idea: key expansion, key inversion, Encrypt and Decrypt. The overlap check is not modelled.
* `IesModel.v`: Model of pubkey/ecies/ecies.go: GenerateKey, GenerateShared, Encrypt, Decrypt, concatKDF, messageTag, symEncrypt, symDecrypt. The curve is a [curve] record, the digest a [hasher], params.Cipher a function from keys to ciphers or nil. crypto/hmac is [hmac], cipher.NewCTR is [new_ctr_xor]. elliptic.GenerateKey, Marshal and Unmarshal of the standard library are written out here; ScalarMult refuses (panics on) points off the curve as the NIST curves do. Its result (0,0) is not nil, so the check for infinity never fires. Nil parameters, the table of defaults and the conversions to crypto/ecdsa are not represented.
* `JksModel.v`: Model of the JKS key store: jceks/binary.go, jceks/jks_encryptkey.go, jceks/jks_utils.go, jceks/jks_decode.go, jceks/jks_encode.go. Strings are byte lists; maps are partial functions. A time is a number of nanoseconds since 1970. SHA-1 is the parameter [H], asn1.Marshal and asn1.Unmarshal of the EncryptedPrivateKeyInfo are [wrap] and [unwrap]. Only the Bytes variants of the functions are modelled: the others parse or marshal PKCS#8 keys and X.509 certificates first. An io.Reader is the list of bytes left; the hash of the TeeReader is that of the bytes consumed. The state left in the store by a Parse that fails is not represented.
* `KcModel.v`: Model of pubkey/kcdsa: kcdsa.go (GenerateParameters, GenerateParametersTTAK, RegenerateParameters, GenerateKey, GenerateKeyWithSeed, Sign, Verify, SignBytes, VerifyBytes, sign, verify), utils.go and ppgf.go. A hash is a [hasher]: digest size, block size and the digest of all bytes written. ProbablyPrime(64) is a function [pp]: Go's test picks its bases from the number. The scratch buffers are lists; only where a stale buffer could be seen (the destination of ppgf) or is too short (the scratch of sign) do they appear. ASN.1 forms, key.go and the nil checks of the parameters are not represented.
* `KdfModel.v`: Model of the key derivation functions kdf/pbkdf, kdf/pbkdf2, kdf/gost_pbkdf2, kdf/kbkdf, kdf/kdftree, kdf/gost_prfplus, kdf/smkdf, kdf/pgp_s2k and kdf/bcrypt_pbkdf. A hash.Hash is the function H from all bytes written since Reset to the digest, with Size() = hs; an HMAC or CMAC object is the same with the key fixed; a PRF of kbkdf takes the key and the concatenation of its arguments. Loops whose end depends on the data take fuel: the result None means that the fuel ran out. Overflow of int and allocation failure are not modelled.
* `LmsModel.v`: Model of pubkey/lms: LM-OTS, LMS and HSS signatures (RFC 8554). A parameter set carries its hash as the function from all bytes written since Reset to the digest, and Size(). The registries of parameter sets (params.go) are functions from the type code. A random source is what the one Read of a call leaves in the buffer, None for an error. Slices have no spare capacity, so that slicing beyond the length panics. Interfaces are never nil. Equal, the getters and sharing of memory between a key and the bytes it was made from are not modelled.
* `MacModel.v`: Model of /repo/mac/*.go and /repo/hash/cmac/cmac.go.
* `MgmModel.v`: Model of /repo/mode/mgm/mgm.go. The guards against inputs above 2^64-1 bytes never fire and are left out.
* `Ocb3Model.v`: Model of /repo/mode/ocb3/ocb3.go. uint128 values are pairs of 64-bit words (lo, hi), lo being the more significant one.
* `OcbModel.v`: Model of /repo/mode/ocb/ocb.go.
* `PaddingModel.v`: Model of /repo/padding/*.go. A text is a byte string, a block size is a Go int (Z). [append] is list append here; its effect on the caller's backing array is modelled separately at the end of this file (section "caller memory").
* `PbeModel.v`: Model of pkcs/pbes1 and pkcs/pbes2: the password based encryption schemes behind PKCS#8 and PKCS#12 (cipher_blockcbc.go, cipher_rc4.go, cipher_derived_key.go, the table of cipher_setting.go and the registry of cipher.go of pbes1; the cipher_*.go files and GetCipher of pbes2). The DER encoding of encoding/asn1 is not modelled: algorithm parameters are the decoded values [der], and Unmarshal succeeds exactly on the values of the wanted shape, integers which do not fit in an int and everything else being [DOther]. Hashes, block ciphers, RC4's key stream and GCM of the standard library are parameters; error texts are dropped. The table of pbes2 is not written out: theorems hold for every combination of a mode, a cipher and the sizes; how pbes2 derives keys (pkcs8/pbes2) is not part of it.
* `PemModel.v`: Model of pkcs1: password protected PEM blocks (pkcs1.go, cipher.go, cipher_cbc.go, cipher_cfb.go, cipher_ofb.go, cipher_ctr.go and the table of cipher_setting.go). The constructors of the five block ciphers are [newc], MD5 is [H]; strings are byte strings, the headers of a block a list of pairs, the random source the bytes it will deliver. Error texts are dropped. The PEM text format (encoding/pem) and user defined ciphers (AddCipher, Cipher implementations of the caller) are not represented.
* `PmacModel.v`: Model of /repo/hash/pmac/pmac.go and block.go.
* `PwModel.v`: Model of the password hashes: passhash/argon2fmt/argon2fmt.go, passhash/argon2/argon2.go, passhash/passhash9/passhash9.go. Strings are byte lists. Argon2 itself is the parameter [A] behind the guards of kdf/argon2 (deriveKey and blake2bHash), PBKDF2 is [P] behind the key check of Blowfish. From the standard library: fmt's %d is [decimal], strconv.Atoi is [atoi], strings.Split is [split], base64 is [b64enc] and [b64raw], [b64std], which give the bytes DecodeString returns next to an error that the code ignores. (true, nil) is [Ok tt].
* `RabinModel.v`: Model of /repo/hash/rabin: the fingerprint (rabin.go, poly.go) and the chunker (chunker.go).
* `RcModel.v`: Model of the block ciphers cipher/rc2, cipher/rc5 and cipher/rc6: key expansion, Encrypt and Decrypt. The overlap check is not modelled.
* `RsaModel.v`: Model of pubkey/rsa: encryption.go (PublicKeyBytes, PrivateKeyBytes, pubKeyIO, priKeyIO, pubKeyDecrypt, priKeyEncrypt, decrypt, copyWithLeftPad, leftPad, modInverse, nonZeroRandomBytes) and lower_safe.go (LowerSafeEncrypt, LowerSafeDecrypt). EncryptPKCS1v15 and DecryptPKCS1v15 of Go's crypto/rsa are outside the repository: [std_encrypt] and [std_decrypt] fix their documented results (RFC 8017, 7.2), without their checks of the size of E and N. xml.go and nil keys are not modelled.
* `Sc1Model.v`: Model of the stream ciphers /repo/cipher/{trivium,rabbit,kcipher2,salsa20}: key set-up, the keystream generators and XORKeyStream. XORKeyStream reads src[i] before it writes dst[i], so calls in place behave as others (but see KCipher-2); overlapping buffers, on which it panics, are not modelled. The golang.org/x/crypto function that salsa20 calls is taken to be what it documents: the XOR with the Salsa20/20 stream from a 64-bit block counter on, which wraps at 2^64.
* `Sc2Model.v`: Model of /repo/cipher/hc: the stream ciphers HC-128 and HC-256. The sixteen unrolled calls of gen_block_* are a loop over x = 0 .. 15. As in Sc1Model, buffers that overlap inexactly (a panic) are not modelled.
* `Sc3Model.v`: Model of /repo/gm/zuc: the ZUC-128 and ZUC-256 generators, the cipher.Stream objects, the buffering Zuc object (Write / Sum), 128-EEA3 and the MACs (ZucMac, EiaGenerateMac, Zuc256Mac). Words are 32-bit, the LFSR cells 31-bit. Buffers do not overlap unless a definition says so; a slice is taken to have no capacity beyond its length; nbits and macbits are not negative.
* `Sc4Model.v`: Model of /repo/cipher/grain: Grain-128AEAD (NewCipher, Seal, Open) and its keystream as a cipher.Stream (NewStreamCipher, XORKeyStream). Words are integers below 2^32 and 2^64. Buffers are either disjoint or exactly the same ([inplace]); the overlap test that panics otherwise is not modelled.
* `Sc5Model.v`: Model of cipher/enigma (NewCipherWithSeed, XORKeyStream) and cipher/spritz and cipher/wake.
* `SivModel.v`: Model of /repo/mode/siv/cipher.go and siv.go.
* `Sm2Model.v`: Model of gm/sm2: sm2.go (signature, encryption, ZA, key construction), marshal.go, utils.go, key_exchange.go (KeyExchangeA/B), keyexchange.go (KeyExchange) and the checks of sm2curve/sm2curve.go around the point arithmetic. The curve is a [curve] record whose operations are only constrained where a theorem says so; a point the code refuses makes Add and ScalarMult panic as in sm2curve.go. A hash object is the digest of what was written to it. encoding/asn1 is a pair of functions [aenc]/[adec] (marshal and unmarshal of two integers and two byte strings) and [senc]/[sdec] (two integers). The error errInvalidK is [Ok None]; other errors are [Err]. Nil pointers, destroying of state (Reset) and the sharing of PublicKey pointers between caller and KeyExchange are not represented.
* `Small1Model.v`: Model of the block ciphers cipher/hight, cipher/noekeon, cipher/gost and cipher/magma: key expansion, Encrypt and Decrypt. The overlap checks are not modelled.
* `Small2Model.v`: Model of the block ciphers cipher/sm4, cipher/shacal2 and cipher/skipjack: key expansion, Encrypt and Decrypt. The overlap check is not modelled.
* `SrModel.v`: Model of pubkey/sdsa (Schnorr signatures over a DSA group) and pubkey/rabin (Rabin encryption, its prime search). Simplifications: numbers of keys are not negative and P of an sdsa key is positive; GenerateParameters of sdsa and the ASN.1 forms are not modelled; the digest of sdsa is any [hasher], SHA-256 of rabin any function of byte strings.
* `StreamModel.v`: Model of the stream modes of /repo/mode that keep a keystream buffer: ofb.go, ofb8.go, nofb.go, g3413ofb.go, g3413ctr.go, gofb.go. XORKeyStream returns nothing, so in this file [Err] stands for "the loop never ends" (no progress); [Panic] for a run-time panic. XORBytes reads and writes position by position and the keystream never aliases the caller's memory, so in-place calls behave as others and only src matters.
* `ToolBytesModel.v`: Model of /repo/tool/bytes (the byte-string helpers the AEAD modes are built on) and of the doubling loops of /repo/mac and /repo/hash.
* `WordModel.v`: Machine words of w bits as integers in 0..2^w-1: Go's +, -, ^, bits.RotateLeft on unsigned integers, the loading and storing of words by encoding/binary, and the frame that the block ciphers of /repo/cipher share.
* `WrapModel.v`: Model of /repo/mode/wrap.go (RFC 3394 key wrap) and wrap_pad.go (RFC 5649). dst is modelled by its whole contents. The register A of the code is 16 bytes long: its low half is overwritten by R before each use, so only its high half is state. src is copied into dst first (memmove), so overlap is harmless.
* `ZtailModel.v`: Model of the shared shape of Encrypt and Decrypt in cipher/{noekeon,gost,kseed,multi2,magenta,e2,crypton1}: the whole source is turned into words, one block of them is processed into a zeroed array of as many words, and that array is copied over dst. The overlap check is not modelled.

### What is not modelled

* The Go runtime: goroutines, the garbage collector, the operating system's random source, time.
* Dependencies outside the repository (Go's standard library, golang.org/x/crypto). Where the code
  calls them they appear as arbitrary functions with the stated laws (a lawful block cipher, an
  arbitrary hash or HMAC function), or are transcribed when small (crypto/cipher CTR).
* Timing and side channels. `subtle.ConstantTimeCompare` is equality.
* Assembly and concurrent batch variants of ciphers (only the generic Go code is read).
* ASN.1, PEM, X.509, PKCS#n containers, SSH keys, and the fluent wrappers of cryptobin/*, except where
  a model file above says otherwise.

## Theorems per property and their assumptions

| id | property | theorems (all: Closed under the global context) |
|----|----|----|
| C01 | PKCS#7 padding round trip | `C01_pkcs7_roundtrip`, `C01_pkcs7_large_block` |
| C02 | PKCS#7 unpadding accepts exactly well-formed padding | `C02_pkcs7_unpad_accepts`, `C02_pkcs7_strict_refuted` |
| C03 | PKCS#5, X9.23 and ISO 10126 padding round trip | `C03_pkcs5_roundtrip`, `C03_pkcs5_accepts`, `C03_x923_roundtrip`, `C03_x923_accepts`, `C03_iso10126_roundtrip` |
| C04 | ISO 7816-4 / ISO 9797-1 / PBOC2 padding round trip and strictness | `C04_iso7816_roundtrip`, `C04_iso7816_accepts` |
| C05 | Zero padding loses exactly trailing zero bytes | `C05_zero_roundtrip_iff`, `C05_zero_loses_trailing_zeros`, `C05_zero_aligned_unpadded_refuted` |
| C06 | TBC padding round trip | `C06_tbc_roundtrip`, `C06_tbc_accepts_only` |
| C07 | PKCS#1-style padding round trip | `C07_pkcs1_roundtrip`, `C07_pkcs1_fills_block_refuted`, `C07_pkcs1_long_text_refuted` |
| C08 | Block modes decrypt what they encrypted | `C08_ecb_roundtrip`, `C08_bc_roundtrip`, `C08_pcbc_roundtrip`, `C08_ige_roundtrip`, `C08_ofbnlf_roundtrip` |
| C09 | Block modes operate correctly in place | `C09_inplace`, `C09_ofbnlf_inplace`, `C09_guards`, `C09_pcbc_inplace_refuted`, `C09_pcbc_inplace_roundtrip_refuted`, `C09_pcbc_inplace_degenerates_to_ecb` |
| C10 | GOST R 34.13 CBC round trip | `C10_g3413cbc_single_roundtrip`, `C10_g3413cbc_multi_call_refuted` |
| C11 | Stream modes are chunking-invariant | `C11_cfb_chunk_invariant`, `C11_cfb8_chunk_invariant`, `C11_cfb1_chunk_invariant`, `C11_ncfb_chunk_refuted`, `C11_cfb16_chunk_refuted`, `C11_ofb_chunk_invariant`, `C11_ofb8_chunk_invariant`, `C11_g3413ofb_chunk_invariant`, `C11_g3413ctr_chunk_invariant`, `C11_nofb_aligned_chunks`, `C11_nofb_chunk_refuted`, `C11_gofb_chunk_refuted` |
| C12 | Stream modes decrypt what they encrypted | `C12_ocfb_roundtrip`, `C12_cfb_roundtrip`, `C12_cfb8_roundtrip`, `C12_cfb1_roundtrip`, `C12_ncfb_roundtrip`, `C12_cfb16_32_64_roundtrip`, `C12_g3413cfb_roundtrip`, `C12_gcfb_roundtrip`, `C12_g3413cfb_inplace_refuted`, `C12_ofb_roundtrip`, `C12_ofb8_roundtrip`, `C12_g3413ofb_roundtrip`, `C12_g3413ctr_roundtrip`, `C12_nofb_roundtrip`, `C12_gofb_roundtrip` |
| C13 | Key wrap round trip and integrity | `C13_wrap_computes`, `C13_default_iv`, `C13_roundtrip`, `C13_unwrap_exact`, `C13_guards`, `C13_small_block_refuted` |
| C14 | CCM seals, opens and authenticates as RFC 3610 says | `C14_params`, `C14_maxlen`, `C14_seal_computes`, `C14_opens_what_it_seals`, `C14_opens_only_sealed`, `C14_guards`, `C14_inplace_refuted` |
| C15 | EAX seals and opens | `C15_seal_computes`, `C15_roundtrip`, `C15_opens_only_sealed`, `C15_open_dst_refuted`, `C15_zero_tag_refuted`, `C15_block_size_refuted`, `C15_guards` |
| C16 | OCB: both packages compute RFC 7253; their exact acceptance sets and their defects | `C16_ocb3_params`, `C16_ocb3_seal`, `C16_ocb3_open`, `C16_ocb_packages_agree`, `C16_ocb3_overhead_refuted`, `C16_ocb3_nonce16_refuted`, `C16_ocb3_seal_in_place_refuted`, `C16_ocb3_failed_open_leaks_refuted`, `C16_params`, `C16_ocb_history`, `C16_open_in_place_refuted`, `C16_seal_in_place_refuted`, `C16_seal_writes_behind_refuted`, `C16_nonce_guards` |
| C17 | MGM seals and opens | `C17_field`, `C17_seal`, `C17_open`, `C17_nonce`, `C17_short_refuted`, `C17_empty` |
| C18 | SIV seals and opens | `C18_cmac_history`, `C18_rfc5297`, `C18_pmac_history`, `C18_aead`, `C18_aead_pmac`, `C18_round_trip`, `C18_in_place_refuted`, `C18_aes_keys` |
| C19 | HCTR is a length-preserving permutation | `C19_field`, `C19_panics`, `C19_computes`, `C19_permutation`, `C19_tweak_refuted`, `C19_long_dst_refuted` |
| C20 | CMAC streaming equals one-shot | `C20_params`, `C20_streaming`, `C20_nist`, `C20_large_blocks_refuted`, `C20_mac_cmac`, `C20_mac_cmac_params`, `C20_mac_cmac_empty_refuted`, `C20_mac_cmac_64bit_refuted` |
| C21 | PMAC streaming equals one-shot | `C21_params`, `C21_half_unique`, `C21_streaming`, `C21_verify`, `C21_long_message_refuted`, `C21_sum_disturbs_refuted`, `C21_64bit_refuted` |
| C22 | Fernet tokens: format, freshness and key choice | `C22_token`, `C22_decrypt_iff`, `C22_panic_iff`, `C22_round_trip`, `C22_new_key`, `C22_key_order_refuted` |
| C23 | Bencode Marshal writes the unique canonical encoding and it decodes back | `C23_marshal`, `C23_round_trip`, `C23_prefix_free` |
| C24 | Bencode Unmarshal accepts exactly the canonical encodings | `C24_accepts`, `C24_total`, `C24_reencode`, `C24_raw`, `C24_raw_one`, `C24_map`, `C24_map_any_order`, `C24_map_refuted`, `C24_bool_refuted`, `C24_bool` |
| C25 | BMP string coding is exact on the BMP and refuses the rest | `C25_encode`, `C25_characters`, `C25_round_trip_z`, `C25_round_trip`, `C25_injective`, `C25_decode`, `C25_reencode`, `C25_invalid_refuted` |
| C26 | IDEA is a block cipher for every key | `C26_idea` |
| C27 | Trivium, Rabbit, KCipher-2, Salsa20 and HC: each call XORs the next keystream bytes | `C27_trivium_stream`, `C27_trivium_lengths`, `C27_rabbit_stream`, `C27_rabbit_rfc_refuted`, `C27_rabbit_counters_refuted`, `C27_kcipher2_inplace`, `C27_kcipher2_plaintext_refuted`, `C27_salsa20_stream`, `C27_salsa20_wrap_refuted`, `C27_hc128_stream`, `C27_hc256_stream`, `C27_hc_lengths` |
| C28 | Hashes stream: any history of Write, Sum and Reset gives the digest of what was written | `C28_md2_streams`, `C28_sm3_streams`, `C28_has160_streams`, `C28_oneshot`, `C28_belt_streams`, `C28_bash_streams`, `C28_bash_bytewise`, `C28_bash_chunking_refuted`, `C28_bash_sizes`, `C28_streebog_streams`, `C28_streebog_standard`, `C28_gost94_streams` |
| C29 | ElGamal and EGDSA signatures verify, and only equation-satisfying pairs do | `C29_prime_key`, `C29_generated_key`, `C29_elgamal`, `C29_elgamal_bytes`, `C29_elgamal_accepts`, `C29_elgamal_range_refuted`, `C29_egdsa`, `C29_egdsa_accepts`, `C29_egdsa_range_refuted` |
| C30 | ElGamal encryption decrypts, is homomorphic, and detects bad padding | `C30_roundtrip`, `C30_bytes`, `C30_refuses`, `C30_padding_checked`, `C30_homomorphic`, `C30_homomorphic_many`, `C30_decrypt_total_refuted`, `C30_decrypt_no_panic` |
| C31 | Padding does not corrupt the caller's memory | `C31_padding_keeps_text`, `C31_padding_no_clobber_when_full`, `C31_padding_clobbers_caller_refuted` |
| C32 | Block modes compute their definition | `C32_ecb_computes`, `C32_bc_computes`, `C32_pcbc_computes`, `C32_ige_computes`, `C32_ofbnlf_computes`, `C32_g3413cbc_computes` |
| C33 | SetIV resets a mode to a fresh one | `C33_ige_set_iv_refuted`, `C33_ige_set_iv_iff` |
| C34 | Stream modes compute their keystream definition | `C34_cfb_computes`, `C34_cfb8_computes`, `C34_cfb1_computes`, `C34_ncfb_computes`, `C34_cfb16_32_64_computes`, `C34_g3413cfb_computes`, `C34_gcfb_computes`, `C34_ocfb_enc_computes`, `C34_ocfb_resync_computes`, `C34_ofb_computes`, `C34_ofb8_computes`, `C34_g3413ofb_computes`, `C34_g3413ctr_computes`, `C34_nofb_computes`, `C34_gofb_first_call_computes` |
| C35 | XORKeyStream terminates and guards its buffers | `C35_feedback_guards`, `C35_cfbk_short_block_panics`, `C35_g3413cfb_partial_then_panics`, `C35_g3413cfb_zero_segment_diverges`, `C35_gcfb_partial_block_panics`, `C35_ofb_large_block_diverges_refuted`, `C35_g3413ctr_large_segment_panics`, `C35_guards` |
| C36 | GOFB counter arithmetic | `C36_gofb_counter_step`, `C36_gofb_counter_refuted` |
| C37 | CFB16, CFB32 and CFB64 shift-register behaviour | `C37_cfbk_keystream_reuse_refuted`, `C37_cfb16_nonstandard_refuted` |
| C38 | OCFB prefix quick check | `C38_ocfb_quick_check` |
| C39 | GCFB key meshing | `C39_gcfb_rfc4357_refuted`, `C39_gcfb_before_meshing` |
| C40 | Key wrap with padding (RFC 5649) | `C40_wrap_computes`, `C40_roundtrip`, `C40_single_block`, `C40_padding_check_refuted`, `C40_guards` |
| C41 | Byte-string helpers compute what they name | `C41_shift_left`, `C41_gfn_double`, `C41_shift_left_n`, `C41_shift_left_n_refuted`, `C41_right_xor`, `C41_split_size`, `C41_all_zero` |
| C42 | The ISO/IEC 9797-1 MACs compute their standard | `C42_cbcmac`, `C42_two_key`, `C42_macdes`, `C42_lmac`, `C42_trcbc`, `C42_cbcr`, `C42_cbcr_forgery_refuted`, `C42_params` |
| C43 | Speck is a block cipher for every key | `C43_speck` |
| C44 | Simon is a block cipher for every key | `C44_simon` |
| C45 | LEA is a block cipher for every key | `C45_lea` |
| C46 | Threefish is a block cipher on exact blocks | `C46_threefish`, `C46_threefish_tail`, `C46_threefish_refuted`, `C46_threefish_short_refuted` |
| C47 | RC2 is a block cipher for every key and effective key length | `C47_rc2` |
| C48 | RC5 is a block cipher for every key, word size and round count | `C48_rc5` |
| C49 | RC6 is a block cipher for every key | `C49_rc6` |
| C50 | HIGHT is a block cipher for every key | `C50_hight` |
| C51 | NOEKEON inverts for every key but wipes dst behind the block | `C51_noekeon`, `C51_noekeon_refuted` |
| C52 | GOST 28147-89 inverts for every key and S-box but wipes dst behind the block | `C52_gost`, `C52_gost_refuted` |
| C53 | Magma is a block cipher for every key | `C53_magma` |
| C54 | EC-GDSA verifies what it signed and exactly the equation's pairs | `C54_sign_verify`, `C54_bytes`, `C54_accepts`, `C54_verify_total_refuted`, `C54_verify_bytes_panics`, `C54_s_range_refuted` |
| C55 | EC-SDSA, EC-OSDSA and EC-FSDSA verify what they signed in the first round | `C55_sdsa_accepts`, `C55_fsdsa_accepts`, `C55_sdsa_sign_verify`, `C55_fsdsa_sign_verify`, `C55_retry_refuted`, `C55_verify_total_refuted`, `C55_verify_bytes_total` |
| C56 | EC-KCDSA verifies what it signed | `C56_sign_verify`, `C56_accepts`, `C56_bytes`, `C56_verify_total`, `C56_zero_r_refuted` |
| C57 | EC-RDSA verifies what it signed in the first round | `C57_accepts`, `C57_verify_total`, `C57_sign_verify`, `C57_retry_refuted` |
| C58 | EC key generation and import/export | `C58_generate`, `C58_export_import`, `C58_import_refuted`, `C58_zero_key` |
| C59 | Saved hash states resume | `C59_sm3_restore`, `C59_sm3_refuses`, `C59_streebog_restore`, `C59_streebog_refuses`, `C59_streebog_accepts_refuted` |
| C60 | BELT is a block cipher for 16, 24 and 32 byte keys | `C60_belt`, `C60_not_standard_refuted`, `C60_hash_copy` |
| C61 | Key trees return the derived key whatever was derived before | `C61_tlstree`, `C61_tlstree_zero_key_refuted`, `C61_esptree`, `C61_esptree_panics` |
| C62 | The Rabin fingerprint is the remainder of the last window of the message | `C62_remainder`, `C62_streams`, `C62_sum64`, `C62_table` |
| C63 | The chunker cuts a stream by content only | `C63_chunker`, `C63_unique`, `C63_bounds`, `C63_resync`, `C63_eager_refuted`, `C63_late_end_refuted` |
| C64 | ZUC-128 and ZUC-256 XOR the published keystream | `C64_zuc128_stream`, `C64_zuc256_stream`, `C64_zuc_aligned`, `C64_zuc_cut_refuted`, `C64_zuc_lengths` |
| C65 | The buffering ZUC object encrypts whatever way the data is cut | `C65_zuc_buffer`, `C65_zuc_noroom` |
| C66 | The ZUC MACs | `C66_zuc256_mac`, `C66_zuc_mac`, `C66_eia_mac`, `C66_eia3_refuted`, `C66_reset_refuted`, `C66_sum_twice_refuted` |
| C67 | 128-EEA3 encrypts exactly nbits bits | `C67_eea3`, `C67_eea3_roundtrip`, `C67_eea3_inplace_refuted` |
| C68 | Grain-128AEAD: Seal and Open, the associated-data header, and Seal in place | `C68_checks`, `C68_seal`, `C68_open_short`, `C68_open`, `C68_round_trip`, `C68_standard`, `C68_header_refuted`, `C68_forgery`, `C68_inplace`, `C68_inplace_even`, `C68_inplace_refuted` |
| C69 | Grain-128 stream cipher: one keystream over all calls | `C69_checks`, `C69_stream`, `C69_round_trip`, `C69_short` |
| C70 | Enigma: construction always ends, the machine is self-inverse and never maps a byte to itself | `C70_keysize`, `C70_rotors`, `C70_round_trip`, `C70_no_fixed_point`, `C70_seed_ignored` |
| C71 | Spritz: permutation state, additive keystream, and what an IV does | `C71_state`, `C71_keysize`, `C71_stream`, `C71_round_trip`, `C71_round_trip_iv`, `C71_iv_cut_refuted`, `C71_hash` |
| C72 | WAKE: calls of whole words are one autokey encryption, other cuts lose bytes | `C72_keysize`, `C72_words`, `C72_round_trip`, `C72_round_trip_same_cut`, `C72_cut_refuted` |
| C73 | PBKDF2: every byte of the key is the byte RFC 8018 gives; gost_pbkdf2 and long passwords, shared memory | `C73_pbkdf2`, `C73_pbkdf2_prefix`, `C73_negative`, `C73_gost`, `C73_gost_is_pbkdf2`, `C73_gost_long_password_refuted`, `C73_gost_memory`, `C73_gost_adjacent_refuted` |
| C74 | PKCS #12 key derivation is the one of RFC 7292 B.2 | `C74_pkcs12`, `C74_prefix`, `C74_negative` |
| C75 | SP 800-108 key derivation in counter, feedback and double-pipeline mode | `C75_counter`, `C75_feedback`, `C75_pipeline`, `C75_bad_arguments`, `C75_counter_repeats` |
| C76 | KDF_TREE_GOSTR3411 gives the blocks of RFC 7836 up to 254 and hangs at the documented maximum of 255 | `C76_tree`, `C76_maximum_refuted`, `C76_refuses` |
| C77 | prf+ and the X9.63 derivation give every block with its counter | `C77_prfplus`, `C77_prfplus_refuses`, `C77_x963`, `C77_x963_refuses` |
| C78 | OpenPGP S2K hashes the right number of bytes; KeyWithTune with iterations 0 never returns | `C78_s2k`, `C78_needs_salt`, `C78_tune_refuted`, `C78_tune_given`, `C78_decode`, `C78_encode`, `C78_code_roundtrip` |
| C79 | bcrypt_pbkdf spreads the blocks over the key without gap or overlap | `C79_bcrypt_pbkdf`, `C79_refuses` |
| C80 | LM-OTS signs the base-2^w digits of the digest and of its checksum, and no digest dominates another | `C80_coefficients`, `C80_no_domination`, `C80_parameters` |
| C81 | LM-OTS keys sign once, the signature is that of RFC 8554 and verifies, and forging needs more than the signature gives away | `C81_public_key`, `C81_sign`, `C81_one_time`, `C81_verify`, `C81_forgery` |
| C82 | LM-OTS signatures and public keys have one encoding each and parsing never panics | `C82_signature_roundtrip`, `C82_signature_canonical`, `C82_signature_total`, `C82_public_key` |
| C83 | The LMS authentication tree holds the right hash in every node | `C83_tree`, `C83_public_key` |
| C84 | An LMS key never uses a leaf twice in a history with saving and loading, and makes exactly 2^h signatures | `C84_history`, `C84_count`, `C84_seed_length_refuted`, `C84_old_copy` |
| C85 | LMS Verify accepts exactly the signatures whose path leads to the public key, but panics on some lengths | `C85_verify`, `C85_binding`, `C85_signature_roundtrip`, `C85_signature_canonical`, `C85_total_refuted`, `C85_public_key` |
| C86 | HSS keys sign 2^h times with the leaves of the lowest tree in order, across saving and loading; the upper levels are not those of RFC 8554 | `C86_history`, `C86_levels`, `C86_rfc_refuted` |
| C87 | HSS encodings: public keys have one encoding; Verify and key loading panic on malformed input | `C87_public_key`, `C87_short_signature_refuted`, `C87_many_levels_refuted` |
| C88 | SM2 signing returns a signature that verifies, except when r is zero or the key is N-1 | `C88_sign`, `C88_no_panic`, `C88_bytes`, `C88_asn1`, `C88_zero_r_refuted`, `C88_top_key_refuted`, `C88_sign_k` |
| C89 | SM2 verification accepts exactly the pairs of the signing equation | `C89_exact`, `C89_off_curve`, `C89_message`, `C89_infinity_forges` |
| C90 | The SM2 identity digest is that of the standard and binds identity, key and message | `C90_za`, `C90_digest`, `C90_binds` |
| C91 | SM2 decryption inverts encryption in both orders and in ASN.1, and the ciphertext is the standard's | `C91_roundtrip`, `C91_roundtrip_k`, `C91_asn1`, `C91_standard`, `C91_empty_refuted` |
| C92 | SM2 decryption accepts exactly sealed texts and panics exactly on three kinds of input | `C92_accepts`, `C92_panics`, `C92_infinity_refuted`, `C92_asn1_integers`, `C92_binds` |
| C93 | The SM2 KeyExchange object: both sides get the standard's key and accept only the standard's confirmations | `C93_agree`, `C93_confirm_responder`, `C93_confirm_initiator`, `C93_off_curve` |
| C94 | KeyExchangeA and KeyExchangeB agree, but deviate from the standard in four ways | `C94_result`, `C94_agree`, `C94_long_id_refuted`, `C94_infinity_refuted`, `C94_tag_order_refuted` |
| C95 | SM2 keys as bytes: round trips, ranges and refusals | `C95_private`, `C95_private_roundtrip`, `C95_zero_key_refuted`, `C95_generate`, `C95_public`, `C95_public_to`, `C95_infinity_refuted` |
| C96 | FF1 permutes the numeral strings of each length | `C96_ff1_is_standard`, `C96_ff1_permutation`, `C96_ff1_no_panic`, `C96_ff1_refuses`, `C96_ff1_new`, `C96_ff1_sign_refuted`, `C96_ff1_capitals_refuted` |
| C97 | FF3 permutes the numeral strings of each length; its constructor reverses the caller's key | `C97_ff3_is_standard`, `C97_ff3_permutation`, `C97_ff3_capitals_refuted`, `C97_ff3_refuses`, `C97_ff3_refuses_char`, `C97_key_slice_refuted`, `C97_ff3_new` |
| C98 | The gcd helpers end and give Bezout cofactors without overflow | `C98_gcd`, `C98_extended`, `C98_extended_recursive`, `C98_extended_iterative`, `C98_negative_refuted`, `C98_lcm` |
| C99 | The rational and big-integer helpers | `C99_floor`, `C99_ceil`, `C99_round_negative`, `C99_round_refuted`, `C99_odd`, `C99_rotate`, `C99_sqrt` |
| C100 | A cascade of two block ciphers is a block cipher | `C100_cascade`, `C100_cascade_is` |
| C101 | Lion is inverted by its decryption when source and destination have the same length | `C101_new`, `C101_roundtrip`, `C101_is_lion`, `C101_long_source_refuted`, `C101_key_tail_refuted`, `C101_long_destination_refuted` |
| C102 | BIP-340 signing and verification agree with the scheme | `C102_accepts`, `C102_sign_with`, `C102_sign_verify`, `C102_bytes`, `C102_verify_total_refuted`, `C102_batch`, `C102_batch_empty_refuted` |
| C103 | BIGN signing and verification agree with the scheme | `C103_adata`, `C103_adata_refuted`, `C103_accepts`, `C103_negative_refuted`, `C103_verify_total_refuted`, `C103_sign_with`, `C103_sign_random`, `C103_zero_nonce_refuted`, `C103_nonce`, `C103_sign_deterministic` |
| C104 | Deterministic ECDSA gives valid signatures but not always the nonce of RFC 6979 | `C104_sign_valid`, `C104_bytes`, `C104_nonce`, `C104_deterministic`, `C104_restart_refuted` |
| C105 | Schnorr signatures over a DSA group are accepted exactly when they satisfy the signing equation | `C105_generate`, `C105_accepts`, `C105_verify_total_refuted`, `C105_sign_with`, `C105_retry_refuted`, `C105_sign`, `C105_bytes` |
| C106 | Rabin decryption finds the plaintext among the four roots | `C106_roundtrip`, `C106_zero_refuted`, `C106_large_refuted`, `C106_decrypt_total`, `C106_zero_modulus_refuted` |
| C107 | Rabin key generation accepts all primes that are 3 modulo 4 but also composites | `C107_test`, `C107_primes_pass`, `C107_composite_refuted`, `C107_test_ends`, `C107_generated`, `C107_key_refuted`, `C107_reader_refuted` |
| C108 | GOST curve arithmetic computes the multiples of the base point | `C108_gost_scalar_mult`, `C108_gost_add`, `C108_gost_off_curve`, `C108_gost_new_curve`, `C108_gost_infinity_refuted` |
| C109 | GOST R 34.10 signatures are accepted exactly when they satisfy the equation of the standard, but for one line | `C109_gost_sign_exact`, `C109_gost_verify_exact`, `C109_gost_verify_degenerate`, `C109_gost_verify_range`, `C109_gost_sign_verify`, `C109_gost_verify_length`, `C109_gost_own_signature_refuted` |
| C110 | GOST keys and points round-trip and VKO agrees on both sides | `C110_gost_private_key`, `C110_gost_generate`, `C110_gost_point_encoding`, `C110_gost_point_decoding`, `C110_gost_kek_agrees`, `C110_gost_kek_hashed`, `C110_gost_ukm`, `C110_gost_equal`, `C110_gost_equal_nil_refuted` |
| C111 | GOST Edwards coordinates and Weierstrass coordinates are inverse to each other | `C111_gost_to_edwards`, `C111_gost_from_edwards`, `C111_gost_not_edwards` |
| C112 | KCDSA signatures are accepted exactly when they satisfy the signing equation | `C112_kcdsa_verify_exact`, `C112_kcdsa_generate_key`, `C112_kcdsa_sign_verify`, `C112_kcdsa_odd_q` |
| C113 | KCDSA byte signatures have a fixed length and verify, but Sign crashes when P is shorter than the digest's block | `C113_kcdsa_sign_bytes`, `C113_kcdsa_verify_bytes`, `C113_kcdsa_short_p_panics` |
| C114 | KCDSA fast parameters form a subgroup of order q, and a whole run from parameters to verification succeeds | `C114_kcdsa_fast_parameters`, `C114_kcdsa_whole_run` |
| C115 | KCDSA seeded generation is the function of the standard and can be repeated from its certificate | `C115_kcdsa_ppgf`, `C115_kcdsa_generate_x`, `C115_kcdsa_ttak_parameters`, `C115_kcdsa_regenerate`, `C115_kcdsa_zero_generator_refuted` |
| C116 | Diffie-Hellman over a prime field: both sides derive the same secret, generated keys are in range, and no peer value is refused | `C116_dh_generate`, `C116_dh_tiny_modulus`, `C116_dh_agreement`, `C116_dh_public`, `C116_dh_degenerate_peer_refuted` |
| C117 | The Diffie-Hellman groups are the standard ones, except the 8192-bit group whose modulus is composite | `C117_dh_groups`, `C117_dh_group_8192_refuted` |
| C118 | ECIES: Encrypt produces the standard's text from a fresh point and Decrypt gives the message back | `C118_ecies_encrypt_carries`, `C118_ecies_roundtrip`, `C118_ecies_encrypt_total`, `C118_ecies_empty_refuted` |
| C119 | ECIES: Decrypt accepts exactly the texts that carry a message from a point on the curve, but text and s2 are not separated | `C119_ecies_decrypt_exact`, `C119_ecies_shift_refuted` |
| C120 | ECIES: the inputs on which Decrypt and Encrypt crash | `C120_ecies_decrypt_panics_exact`, `C120_ecies_decrypt_panics_refuted`, `C120_ecies_sizes`, `C120_ecies_aes256_sha384_refuted`, `C120_ecies_zero_ephemeral_refuted` |
| C121 | The chained API: Decrypt undoes Encrypt for every mode and padding it should, and the combinations for which it cannot | `C121_round_trip`, `C121_authenticated`, `C121_hctr`, `C121_ocfb`, `C121_unknown`, `C121_ocfb_decrypt_twice_refuted` |
| C122 | The chained API: Encrypt and Decrypt never panic, report exactly one error on failure, and keep the previous result | `C122_reports`, `C122_panicking_handler_refuted` |
| C123 | The chained API: an earlier error does not stop the chain | `C123_errors_do_not_stop`, `C123_bad_text_keeps_data` |
| C124 | The chained API: options are shared by all objects that descend from one New, and all chains of the package functions | `C124_option_stored`, `C124_options_isolated`, `C124_package_chains_share_refuted` |
| C125 | The chained API: the errors an object shows stay, unless a chain is forked | `C125_errors_stay`, `C125_errors_isolated`, `C125_forked_errors_refuted` |
| C126 | NewNISTHash is Hash_DRBG of SP 800-90A over every history of calls | `C126_nist_hash_history`, `C126_nist_hash_fills` |
| C127 | NewGMHash: the GM variant over every history, and what it leaves in the buffer | `C127_gm_hash_history`, `C127_gm_hash_tail_refuted` |
| C128 | NewHMAC is HMAC_DRBG of SP 800-90A over every history of calls | `C128_hmac_history`, `C128_hmac_fills` |
| C129 | NewCTR over every history: CTR_DRBG of SP 800-90A except when an input fills the last block of the derivation function | `C129_ctr_history`, `C129_ctr_nist`, `C129_ctr_fills`, `C129_ctr_padding_refuted` |
| C130 | The reseed interval of the generators, and the small generators prng and keygen | `C130_hash_interval`, `C130_hmac_interval`, `C130_ctr_interval`, `C130_prng_read`, `C130_keygen`, `C130_keygen_short_read_refuted` |
| C131 | Password protected PEM blocks decrypt to what was encrypted | `C131_pem_roundtrip`, `C131_pem_nil_cipher` |
| C132 | Decryption of PEM blocks returns exactly the legacy format's plaintext, never panics, and does not detect wrong passwords | `C132_pem_decrypt_exact`, `C132_wrong_password_unreported` |
| C133 | The PEM password derivation is the iterated digest chain | `C133_derive_key`, `C133_derive_key_prefix` |
| C134 | PBES1 round trips and decrypts exactly as the standards say | `C134_pbes1_roundtrip`, `C134_pbes1_decrypt_exact`, `C134_count_unchecked` |
| C135 | PBES2 encryption schemes round trip | `C135_pbes2_roundtrip`, `C135_variants`, `C135_ccm_too_long` |
| C136 | PBES2 decryption accepts exactly the plaintexts of its modes and never panics | `C136_pbes2_decrypt_exact`, `C136_rc2_version_ignored` |
| C137 | Ber2der turns every BER encoding into the one DER encoding of the same value | `C137_ber2der`, `C137_output_is_der`, `C137_idempotent`, `C137_injective` |
| C138 | Which inputs break Ber2der: cut tags panic, lengths that end inside a child are accepted, reading can be exponential | `C138_panic_only_cut_tag`, `C138_panics_refuted`, `C138_overrun_accepted`, `C138_exponential`, `C138_empty_indefinite` |
| C139 | JKS key protection round trips, decrypts exactly its own ciphertexts, and panics on short ones | `C139_encrypt_is_protector`, `C139_roundtrip`, `C139_decrypt_exact`, `C139_short_panics` |
| C140 | A JKS store keeps what was added, in order, and survives Marshal and Load | `C140_history`, `C140_marshal_load`, `C140_marshal_format`, `C140_get_key`, `C140_long_alias_refuted`, `C140_failed_random_destroys_key` |
| C141 | LoadJksFromBytes accepts exactly intact JKS files | `C141_load_exact`, `C141_panic_negative_length`, `C141_panics_refuted` |
| C142 | The RSA private operation is c^d mod N whatever the blinding and the precomputed values | `C142_rsa_private_operation`, `C142_rsa_private_too_large`, `C142_rsa_key_equation`, `C142_rsa_blinding_enough` |
| C143 | RSA messages of one block come back under the matching key | `C143_rsa_public_roundtrip`, `C143_rsa_private_roundtrip` |
| C144 | RSA encryption of more than one block does not round trip | `C144_rsa_long_layout`, `C144_rsa_long_private_refuted`, `C144_rsa_long_public_refuted`, `C144_rsa_long_roundtrip_refuted`, `C144_rsa_foreign_blocks` |
| C145 | Decryption with an RSA public key accepts malformed blocks and can panic | `C145_rsa_public_recover`, `C145_rsa_public_panic`, `C145_rsa_panic_refuted`, `C145_rsa_forgery_refuted` |
| C146 | The unpadded RSA functions return the message exactly when it is a reduced number without leading zeros | `C146_rsa_lower_roundtrip`, `C146_rsa_lower_shortest`, `C146_rsa_lower_leading_zero_refuted`, `C146_rsa_lower_exact` |
| C147 | argon2fmt hashes verify with exactly the right key, but crafted or garbled strings panic | `C147_argon2fmt_compare_exact`, `C147_argon2fmt_generate_exact`, `C147_argon2fmt_roundtrip`, `C147_argon2fmt_malformed_panics`, `C147_argon2fmt_accept_sound` |
| C148 | argon2 hashes verify with exactly the right key, also when the salt is missing | `C148_argon2_compare_exact`, `C148_argon2_generate_exact`, `C148_argon2_roundtrip`, `C148_argon2_unsalted_refuted`, `C148_argon2_accept_sound` |
| C149 | passhash9 accepts exactly the hashes of the password, and panics for exactly the large work factors | `C149_passhash9_compare_exact`, `C149_passhash9_generate_exact`, `C149_passhash9_roundtrip`, `C149_passhash9_limit_refuted` |
| C150 | The BKS key store keeps what was added | `C150_bks_history`, `C150_bks_adds`, `C150_bks_roundtrip`, `C150_bks_format` |
| C151 | What the BKS parser accepts | `C151_bks_parse_exact`, `C151_bks_v1_forgery_refuted`, `C151_bks_panic_negative_length`, `C151_bks_negative_salt_panics` |
| C152 | Sealed keys of a BKS store | `C152_sealed_roundtrip`, `C152_sealed_sound`, `C152_reloaded_marshal_panics_refuted`, `C152_reseal_empty_password_refuted`, `C152_failed_open_destroys_refuted`, `C152_empty_sealed_panics_refuted`, `C152_plain_getters` |
| C153 | The UBER key store | `C153_uber_parse_exact`, `C153_uber_roundtrip`, `C153_uber_short_panics_refuted` |
| C154 | SM4 is the standard cipher and decrypts what it encrypts | `C154_sm4`, `C154_sm4_tables`, `C154_sm4_standard` |
| C155 | SHACAL-2 is the SHA-256 compression keyed by the message block, and many keys are one | `C155_shacal2`, `C155_shacal2_is_sha256`, `C155_shacal2_equivalent_keys_refuted` |
| C156 | Skipjack decrypts what it encrypts | `C156_skipjack` |
