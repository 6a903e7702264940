{"id": "C01", "title": "PKCS#7 padding round trip", "statement": "For every byte string x and every block size 1..255, PKCS7 Padding(x,bs) has a length that is a non-zero multiple of bs, starts with x, and UnPadding returns exactly x with no error.", "quantifier": "all byte strings, all block sizes 1..255", "why_tests_cant": "unbounded lengths and contents; the block boundary, the multiple-of-block case and trailing bytes that look like padding all have to work", "anchors": ["padding/pkcs7.go: PKCS7Padding.Padding, PKCS7Padding.UnPadding"]}
{"id": "C02", "title": "PKCS#7 unpadding accepts exactly well-formed padding", "statement": "PKCS7 UnPadding succeeds on s iff s is non-empty and, with k the value of the last byte, s has at least k bytes and its last k bytes all equal k; the result is s without those k bytes. (In particular a last byte 0 is accepted as 'no padding'.)", "quantifier": "all byte strings", "why_tests_cant": "acceptance set is over all strings", "anchors": ["padding/pkcs7.go: PKCS7Padding.UnPadding"]}
{"id": "C03", "title": "PKCS#5, X9.23 and ISO 10126 padding round trip", "statement": "For every byte string (and every choice of random filler bytes for ISO 10126) UnPadding(Padding(x,bs)) = x with no error, and the padded length is a multiple of the block size.", "quantifier": "all byte strings, block sizes 1..255, all random filler", "why_tests_cant": "random filler and unbounded lengths", "anchors": ["padding/pkcs5.go", "padding/x923.go", "padding/iso10126.go"]}
{"id": "C04", "title": "ISO 7816-4 / ISO 9797-1 / PBOC2 padding round trip and strictness", "statement": "UnPadding(Padding(x,bs)) = x for every x and bs>=1; UnPadding(s) succeeds with x iff s = x || 0x80 || 0x00*.", "quantifier": "all byte strings, all block sizes", "why_tests_cant": "data may itself contain 0x80 and zeros in any arrangement", "anchors": ["padding/iso7816_4.go", "padding/iso97971.go", "padding/pboc2.go"]}
{"id": "C05", "title": "Zero padding loses exactly trailing zero bytes", "statement": "UnPadding(Padding(x)) = x with its trailing zero bytes removed; hence the round trip holds iff x does not end in 0x00.", "quantifier": "all byte strings, all block sizes", "why_tests_cant": "exact characterisation over all strings", "anchors": ["padding/zero.go"]}
{"id": "C06", "title": "TBC padding round trip", "statement": "UnPadding(Padding(x,bs)) = x for every x and bs>=1 under trailing-bit-complement padding.", "quantifier": "all byte strings, all block sizes", "why_tests_cant": "depends on the last bit and on runs of 00/FF at the end of x", "anchors": ["padding/tbc.go"]}
{"id": "C07", "title": "PKCS#1-style padding round trip", "statement": "UnPadding(Padding(x,bs)) = x whenever x is short enough (see theorem) for every block type and filler. The padded block is one byte longer than the block size, and a text longer than a byte can count is not recovered (both are defects, shown by counterexample).", "quantifier": "all byte strings, all block sizes, all filler", "why_tests_cant": "length byte truncation and minimum filler are boundary conditions over all lengths", "anchors": ["padding/pkcs1.go"]}
{"id": "C08", "title": "Block modes decrypt what they encrypted", "statement": "For every lawful block cipher, IV, and block-aligned message split into any sequence of CryptBlocks calls, ECB, BC, PCBC, IGE, OFBNLF decrypters return the message, whatever the (possibly different) split used on either side.", "quantifier": "all ciphers, IVs, messages, call splits", "why_tests_cant": "chaining state is carried across an unbounded number of calls", "anchors": ["mode/ecb.go", "mode/bc.go", "mode/pcbc.go", "mode/ige.go", "mode/ofbnlf.go"]}
{"id": "C09", "title": "Block modes operate correctly in place", "statement": "With dst and src the same buffer, ECB, BC, IGE, OFBNLF (both directions) and the G3413CBC encrypter write the same bytes and leave the same state as with distinct buffers, and bytes of dst beyond len(src) are untouched; partial blocks and short destinations panic. PCBC violates this: in place every block after the first is encrypted as ECB.", "quantifier": "all ciphers, IVs, messages", "why_tests_cant": "aliasing affects each step of an unbounded loop", "anchors": ["mode/*.go"]}
{"id": "C10", "title": "GOST R 34.13 CBC round trip", "statement": "One CryptBlocks call on the g3413 CBC decrypter recovers the message for any number of blocks, in place or not, whatever history of calls encrypted it. Several decrypter calls do not: the decrypter never updates its register (defect, shown by counterexample).", "quantifier": "all ciphers, IVs, messages, call splits", "why_tests_cant": "shift register of two blocks over unbounded calls", "anchors": ["mode/g3413cbc.go"]}
{"id": "C11", "title": "Stream modes are chunking-invariant", "statement": "Splitting the message arbitrarily across XORKeyStream calls gives the same output as one call for OFB, OFB8, CFB, CFB8, CFB1, OCFB, G3413CTR and G3413OFB. NOFB, NCFB, CFB16/32/64, G3413CFB and GCFB guarantee it only for splits at block (segment) boundaries, and GOFB not even then: it restarts its counter chain on every call (defects, shown by counterexample).", "quantifier": "all ciphers, IVs, messages, call splits", "why_tests_cant": "internal refill buffers make position arithmetic depend on the whole history", "anchors": ["mode/ofb.go", "mode/ofb8.go", "mode/cfb.go", "mode/cfb8.go", "mode/g3413ctr.go", "mode/g3413ofb.go"]}
{"id": "C12", "title": "Stream modes decrypt what they encrypted", "statement": "Decrypt(Encrypt(m)) = m for every stream mode, when both sides use the same sequence of call lengths (for the chunking-invariant modes, any two sequences).", "quantifier": "all ciphers, IVs, messages, call splits", "why_tests_cant": "unbounded histories", "anchors": ["mode/nofb.go", "mode/ncfb.go", "mode/gofb.go", "mode/cfb1.go", "mode/cfb16.go", "mode/cfb32.go", "mode/cfb64.go"]}
{"id": "C13", "title": "Key wrap round trip and integrity", "statement": "With a 128-bit block cipher, the wrap encrypter writes exactly the RFC 3394 ciphertext of any key of n>=2 semiblocks (up to 2^31 bytes) and nothing beyond it; the decrypter returns the key for exactly those ciphertexts that are wraps of some key under the same IV, and zeroes the output for every other one of a legal length; illegal lengths panic (encrypter) or zero (decrypter). With a 64-bit cipher, which the constructor accepts, the 'wrapped' key contains the key in the clear (defect).", "quantifier": "all ciphers, IVs, key lengths, ciphertexts", "why_tests_cant": "6n Feistel-like steps with counter, n unbounded", "anchors": ["mode/wrap.go"]}
{"id": "C14", "title": "CCM seals, opens and authenticates as RFC 3610 says", "statement": "NewCCMWithNonceAndTagSize accepts exactly even tags of 4..16 bytes, nonces of 7..13 bytes and 16-byte block ciphers. For every accepted instance, every nonce of that length, every associated data and every plaintext within the length limit, Seal into a separate buffer appends the RFC 3610 ciphertext and tag to dst, and Open of it appends the plaintext. Open accepts no string other than one that Seal outputs for the returned plaintext under the same nonce and associated data. Wrong nonce lengths and over-long plaintexts panic; short and over-long ciphertexts are errors. Sealing in place (dst = plaintext[:0]) authenticates the ciphertext instead, and Open then refuses the result unless the two tags coincide (defect).", "quantifier": "all 128-bit block ciphers, nonces, messages, associated data and parameters", "why_tests_cant": "messages and associated data are unbounded and the claim ranges over every cipher and every forged string", "anchors": ["mode/ccm/ccm.go:NewCCMWithNonceAndTagSize", "mode/ccm/ccm.go:Seal", "mode/ccm/ccm.go:Open", "mode/ccm/ccm.go:auth"]}
{"id": "C15", "title": "EAX seals and opens", "statement": "For a 128-bit block cipher, every tag size 0..16, every nonce no longer than the nonce size and every message and associated data, Seal appends the EAX ciphertext and tag to dst, and Open with an empty dst returns the message; Open accepts only strings that Seal outputs for the same nonce and associated data. Defects stated exactly: Open with a non-empty dst returns only the first len(message) bytes of dst||message; a tag size of 0 passes the constructor and then every string opens; a cipher of another block size passes the constructor and Seal panics.", "quantifier": "all ciphers, nonces, messages, associated data, tag sizes", "why_tests_cant": "unbounded lengths; forged strings are not enumerable", "anchors": ["mode/eax/eax.go:NewEAXWithNonceAndTagSize", "mode/eax/eax.go:Seal", "mode/eax/eax.go:Open", "mode/eax/eax.go:omac"]}
{"id": "C16", "title": "OCB: both packages compute RFC 7253; their exact acceptance sets and their defects", "statement": "mode/ocb accepts exactly block size 16, nonce size 1..15 and tag size at most 16 (0 and negative included). For every history of Seal and Open calls on one object, Seal appends the RFC 7253 ciphertext to dst, and Open with an empty dst returns pt exactly for the strings that are the RFC 7253 ciphertext of pt; the nonce cache never shows. Open with a non-empty dst always fails. Open in place accepts every string at least as long as the tag; Seal in place yields a ciphertext that does not open; Seal of a message with a partial block overwrites the caller's bytes behind it; an empty nonce panics. mode/ocb3 accepts block size 16, tag size 12..16 and any positive nonce size; Seal and Open compute the same ciphertexts as mode/ocb, with any dst. Its Overhead() is too large by the nonce size, nonce sizes of 16 or more panic in every call, Seal in place with a partial block does not open, and a failed Open leaves every whole plaintext block in the memory behind dst.", "quantifier": "all lawful 16-byte block ciphers, nonces, messages, associated data, tag sizes, and all histories of calls on one object", "why_tests_cant": "the cache and the offset table depend on the whole history; acceptance of exactly the sealed strings ranges over all strings", "anchors": ["mode/ocb/ocb.go:NewOCBWithNonceAndTagSize,Seal,Open,crypt", "mode/ocb3/ocb3.go:NewWithNonceAndTagSize,Seal,Open,Overhead"]}
{"id": "C17", "title": "MGM seals and opens", "statement": "mode/mgm over a 128-bit block cipher: Seal accepts exactly 16-byte nonces whose top bit is 0 (panics otherwise) and returns dst followed by the RFC 9058 ciphertext and tag for every plaintext and additional data; Open returns a plaintext exactly when the input is the RFC 9058 ciphertext of that plaintext and an error otherwise. The field product used is multiplication in GF(2^128) modulo x^128+x^7+x^2+x+1. Defects stated exactly: an input shorter than the tag makes Open panic instead of returning an error, and Seal panics when both plaintext and additional data are empty although Open accepts the corresponding 16-byte tag.", "quantifier": "all lawful 128-bit block ciphers, nonces, plaintexts, additional data, ciphertexts", "why_tests_cant": "unbounded lengths and all 2^128 x 2^128 field products", "anchors": ["mode/mgm/mgm.go:NewMGM", "mode/mgm/mgm.go:Seal", "mode/mgm/mgm.go:Open", "mode/mgm/mgm.go:auth", "mode/mgm/mgm.go:crypt", "mode/mgm/mul128.go:Mul"]}
{"id": "C18", "title": "SIV seals and opens", "statement": "mode/siv: for every history of Seal and Open calls on one object (CMAC or PMAC, any lawful block ciphers of equal block size): Seal appends the RFC 5297 synthetic IV and CTR ciphertext (RFC 5297 exactly for 128-bit ciphers with CMAC); Open appends the plaintext exactly when its input is the SIV ciphertext of it and reports an error otherwise; more than 126 associated strings are an error; nothing a previous call left behind matters. The cipher.AEAD wrapper panics exactly on a wrong nonce length (unless the configured length is negative), and treats nil additional data as absent but empty additional data as an associated string. mode/siv/aes takes exactly 32- and 64-byte keys. Defect stated exactly: when dst and plaintext alias exactly, which the documentation allows, Seal panics for every plaintext longer than a block and otherwise encrypts its own IV instead of the plaintext.", "quantifier": "all lawful block ciphers, call histories, nonces, associated strings, messages", "why_tests_cant": "history and lengths are unbounded; Open must refuse every string that is not a ciphertext", "anchors": ["mode/siv/cipher.go:Seal", "mode/siv/cipher.go:Open", "mode/siv/cipher.go:s2v", "mode/siv/cipher.go:zeroIVBits", "mode/siv/siv.go:Seal", "mode/siv/siv.go:Open", "mode/siv/aes/siv.go:NewCMAC"]}
{"id": "C19", "title": "HCTR is a length-preserving permutation", "statement": "mode/hctr: for every 128-bit block cipher, 16-byte tweak and hash key and every message of at least 16 bytes (below 2^60) written to a destination of the same length, Encrypt and Decrypt keep the length and are inverse to each other; the table-driven multiplication is multiplication in GF(2^128); when the length is 0 or 8 modulo 16 the output is that of HCTR. NewHCTR, Encrypt and Decrypt panic exactly on the wrong lengths. Defects stated exactly: for a length that is k modulo 16 with k not 0, only the first 16-k tweak bytes and at most k bytes from position k on influence the result, so different tweaks give the same ciphertexts; with a destination longer than the message the old bytes behind it are hashed and the ciphertext does not decrypt.", "quantifier": "all lawful 128-bit ciphers, tweaks, hash keys, messages, destinations", "why_tests_cant": "tweak, key and message spaces are unbounded; the field identity ranges over 2^256 pairs", "anchors": ["mode/hctr/hctr.go:NewHCTR", "mode/hctr/hctr.go:Encrypt", "mode/hctr/hctr.go:Decrypt", "mode/hctr/hctr.go:mul", "mode/hctr/hctr.go:uhash", "mode/hctr/hctr.go:ctr"]}
{"id": "C20", "title": "CMAC streaming equals one-shot", "statement": "hash/cmac: New accepts exactly block sizes 8, 16, 32, 64, 128 and tag sizes 1..BlockSize; after any history of Write, Sum and Reset calls every Sum appends the CMAC of what was written since the last Reset, which for 64- and 128-bit ciphers is the CMAC of NIST SP 800-38B. For larger blocks the reduction constants are cut to one byte, so the tag is CMAC for another polynomial than the one named (defect). mac.NewCMAC computes CMAC with 0x87 at every block size (so it is not SP 800-38B for 64-bit ciphers) and returns an untruncated tag for the empty message (defects).", "quantifier": "all ciphers, messages, call histories", "why_tests_cant": "history of Write/Sum is unbounded", "anchors": ["hash/cmac/cmac.go:NewWithTagSize", "hash/cmac/cmac.go:Write", "hash/cmac/cmac.go:Sum", "mac/cmac.go:NewCMAC", "mac/cmac.go:MAC"]}
{"id": "C21", "title": "PMAC streaming equals one-shot", "statement": "hash/pmac: New accepts exactly block sizes 8, 16, 32, 64, 128 and tag sizes 1..BlockSize. For every history in which each Sum is followed by a Reset and at most 2^(2n-1) blocks are written between Resets, every Sum appends the (truncated) PMAC of what was written, and Verify accepts exactly that value. Defects stated exactly: Sum overwrites the running digest, so a second Sum or further writing gives other values; a longer message (more than 256 KiB for a 64-bit cipher) always panics; the 128-bit polynomial 0x87 is used at every block size, so for 64-bit ciphers the tag is not PMAC.", "quantifier": "all ciphers, messages, call histories", "why_tests_cant": "history of Write/Sum/Reset and message length are unbounded", "anchors": ["hash/pmac/pmac.go:NewWithTagSize", "hash/pmac/pmac.go:Write", "hash/pmac/pmac.go:Sum", "hash/pmac/pmac.go:checkSum", "hash/pmac/pmac.go:processBuffer", "hash/pmac/block.go:Dbl", "hash/pmac/verify.go:Verify"]}
{"id": "C22", "title": "Fernet tokens: format, freshness and key choice", "statement": "fernet: EncryptWithTime produces exactly the Fernet token (version, big-endian second, IV, AES-CBC of the PKCS #7 padded message, HMAC) for every message, key, IV and time. DecryptWithTime with one key returns m exactly when the decoded token is authentic under the key, its payload decrypts to m, and the token is not stale (with ttl > 0: now <= ts + ttl and ts <= now + 60 s, to the nanosecond; with ttl <= 0 the time is ignored); it panics exactly on an authentic, fresh token shorter than 57 bytes, and returns nil otherwise. A token decrypts with any key list that has its key after keys whose MAC does not match. NewKey accepts exactly 32 bytes. Defect stated exactly: trying a key decrypts the shared buffer in place, so with two keys sharing a signing half the result depends on their order.", "quantifier": "all messages, keys, IVs, tokens, times, key lists; AES any lawful cipher, HMAC any 32-byte function, base64 any invertible coder", "why_tests_cant": "tokens, times and key lists are unbounded; rejection must hold for every forged token", "anchors": ["fernet/fernet.go:EncryptWithTime", "fernet/fernet.go:DecryptWithTime", "fernet/fernet.go:encrypt", "fernet/fernet.go:decrypt", "fernet/utils.go:pad", "fernet/utils.go:encodedLen", "fernet/key.go:NewKey"]}
{"id": "C23", "title": "Bencode Marshal writes the unique canonical encoding and it decodes back", "statement": "bencode.Marshal of a tree of integers of any size, byte strings, lists and dictionaries writes exactly its bencoding (BEP 3: decimal integers, length-prefixed strings, dictionary keys in byte order), which is unique; Unmarshal into an any returns the same tree (up to the listing order of dictionaries) when no string is longer than 2^27-1 bytes; encodings are prefix free.", "quantifier": "all value trees of any depth and size", "why_tests_cant": "recursive structure of unbounded depth and all integer and string values", "anchors": ["bencode/encode.go:Encoder.reflectValue", "bencode/encode.go:Encoder.reflectString", "bencode/bencode.go:Marshal", "bencode/bencode.go:Unmarshal"]}
{"id": "C24", "title": "Bencode Unmarshal accepts exactly the canonical encodings", "statement": "Unmarshal into an any returns v exactly when the input is the canonical bencoding of v (no leading zeros, no -0, keys strictly increasing, nothing after it) with no string longer than 2^27-1 bytes; every other input gives an error, never a panic and never an endless loop, so Marshal of a decoded value is the input byte for byte. Unmarshal into Bytes keeps the text of exactly one value. Defects stated exactly: into a map[string]any the keys may come in any order, may repeat (the last wins), and may be a list of one string or an empty dictionary; into a bool any text with an acceptable first digit, even the empty one, is true.", "quantifier": "all byte strings", "why_tests_cant": "the accepted language and the rejected inputs are infinite", "anchors": ["bencode/decode.go:Decoder.parseValueInterface", "bencode/decode.go:Decoder.checkBufferedInt", "bencode/decode.go:Decoder.parseStringLength", "bencode/decode.go:Decoder.parseDictInterface", "bencode/decode.go:Decoder.readOneValue", "bencode/decode.go:Decoder.parseDict", "bencode/decode.go:Decoder.parseList"]}
{"id": "C25", "title": "BMP string coding is exact on the BMP and refuses the rest", "statement": "BmpString writes two big-endian bytes per character of any Go string and fails exactly when a character is outside the Basic Multilingual Plane; DecodeBMPString of the zero-terminated form returns the string for every valid string of BMP characters; without terminator it does so except that one final NUL is lost; distinct valid strings have distinct BMP strings; decoding fails exactly on odd lengths and yields valid UTF-8. Defect stated exactly: strings that are not valid UTF-8 collide (\"\\xff\" and \"\\xfe\").", "quantifier": "all Go strings, all byte strings", "why_tests_cant": "all strings of all lengths and all 1.1 million characters in all positions", "anchors": ["tool/bmp_string/bmp_string.go:BmpString", "tool/bmp_string/bmp_string.go:BmpStringZeroTerminated", "tool/bmp_string/bmp_string.go:DecodeBMPString"]}
{"id": "C26", "title": "IDEA is a block cipher for every key", "statement": "idea.NewCipher accepts exactly 16-byte keys, and for every such key Decrypt undoes Encrypt and Encrypt undoes Decrypt, exactly one block of dst is written, only the first block of src is read, and a src or dst shorter than a block panics. This includes that the inverted key schedule inverts multiplication modulo 65537 for every subkey.", "quantifier": "all keys, all blocks, all slice lengths", "why_tests_cant": "2^64 to 2^128 blocks times all keys; one wrong table entry or round index shows on few of them", "anchors": ["cipher/idea/idea.go:NewCipher", "cipher/idea/idea.go:mulInv", "cipher/idea/idea.go:crypt"]}
{"id": "C27", "title": "Trivium, Rabbit, KCipher-2, Salsa20 and HC: each call XORs the next keystream bytes", "statement": "For Trivium, Salsa20, HC-128 and HC-256 with keys and IVs of the accepted lengths: over any history of XORKeyStream calls, however the message is cut, output byte i is input byte i XOR keystream byte i of the published generator (given separately), so a fresh object decrypts. The exact limits are part of the property: Salsa20 needs its position to stay below 2^64; KCipher-2 does so only when dst is src, while with separate buffers it returns the plaintext; Rabbit is a self-inverse stream cipher but not RFC 4503, and its counters only take the values 0 and 1. Other key and IV lengths are errors.", "quantifier": "all keys, IVs, messages, call splits", "why_tests_cant": "unbounded histories; the defects show only for separate buffers, at position 2^64, or against a vector the tests do not have", "anchors": ["cipher/trivium/trivium.go", "cipher/rabbit/rabbit.go", "cipher/kcipher2/kcipher2.go", "cipher/salsa20/salsa20.go", "cipher/hc/hc128.go", "cipher/hc/hc256.go"]}
{"id": "C28", "title": "Hashes stream: any history of Write, Sum and Reset gives the digest of what was written", "statement": "For MD2, SM3, HAS-160, BELT hash, Streebog (256 and 512), GOST R 34.11-94 (over any block cipher): in every history of Write, Sum and Reset each Sum returns its argument followed by the standard digest of all bytes written since the last Reset, does not panic and does not disturb later calls; the digest is specified separately as padding and iteration over blocks. Bash does so exactly for histories in which no Write crosses a block end (so byte by byte always). Defect stated exactly: a Bash Write that crosses a block end gives another digest, so the result depends on how the message is cut; its constructor accepts all negative sizes.", "quantifier": "all messages, all call histories, all digest sizes", "why_tests_cant": "buffering state over unbounded histories; the repository's own long Bash vectors encode the defect", "anchors": ["hash/md2/digest.go", "hash/sm3/digest.go", "hash/has160/digest.go", "hash/belt/digest.go", "hash/bash/digest.go:Write", "hash/gost/gost34112012/hash.go", "hash/gost/gost341194/hash.go"]}
{"id": "C29", "title": "ElGamal and EGDSA signatures verify, and only equation-satisfying pairs do", "statement": "For every key made by GenerateKey from a prime p and g of order q (or any valid key), every nonce source and digest, whatever elgamal/egdsa Sign returns is accepted by Verify, also through the bytes encoding; Verify accepts exactly the pairs meeting the signature equation within the range checks the code makes. Defect stated exactly: r = 0 and s = 0 pass the range checks, so (0,0) is accepted for an all-zero digest under every key (elgamal) and for one fixed digest under every safe-prime key (egdsa).", "quantifier": "all groups, keys, digests, random sources", "why_tests_cant": "algebraic identity over large groups", "anchors": ["pubkey/elgamal/elgamal.go:SignToRS", "pubkey/elgamal/elgamal.go:VerifyWithRS", "pubkey/egdsa/egdsa.go"]}
{"id": "C30", "title": "ElGamal encryption decrypts, is homomorphic, and detects bad padding", "statement": "Decrypt(priv, Encrypt(pub, m)) = m for every valid key, message short enough and random source; too long messages are refused; the padding is checked on decryption; products of ciphertexts decrypt to products of messages. Defect stated exactly: Decrypt panics on some ciphertexts, and the theorem says on which it does not.", "quantifier": "all groups, keys, messages, random sources, ciphertexts", "why_tests_cant": "algebraic identity over large groups", "anchors": ["pubkey/elgamal/elgamal.go:Encrypt", "pubkey/elgamal/elgamal.go:Decrypt", "pubkey/elgamal/elgamal.go:HomomorphicEncTwo"]}
{"id": "C31", "title": "Padding does not corrupt the caller's memory", "statement": "Padding leaves the caller's text unchanged, and leaves the bytes of the caller's backing array beyond len(text) unchanged when the text fills its capacity. Otherwise append writes the padding into the caller's backing array (defect, shown by counterexample).", "quantifier": "all texts, capacities, block sizes", "why_tests_cant": "aliasing of the backing array beyond len is invisible to value-based tests", "anchors": ["padding/*.go"]}
{"id": "C32", "title": "Block modes compute their definition", "statement": "Over any history of CryptBlocks calls the i-th ciphertext block of ECB, BC, PCBC, IGE, OFBNLF, G3413CBC is the function of plaintext blocks, earlier ciphertext blocks and IV given by the mode's recurrence.", "quantifier": "all ciphers, IVs, messages, call splits, block indices", "why_tests_cant": "recurrence over unboundedly many blocks and calls", "anchors": ["mode/ecb.go", "mode/bc.go", "mode/pcbc.go", "mode/ige.go", "mode/ofbnlf.go", "mode/g3413cbc.go"]}
{"id": "C33", "title": "SetIV resets a mode to a fresh one", "statement": "SetIV(iv) on IGE should leave the object as if built with iv; it does so exactly when both halves of iv are equal (defect, shown by counterexample).", "quantifier": "all ciphers and IVs", "why_tests_cant": "state after reset is compared on all later inputs", "anchors": ["mode/ige.go: SetIV"]}
{"id": "C34", "title": "Stream modes compute their keystream definition", "statement": "Over any history of XORKeyStream calls, output byte i is input byte i XOR the keystream byte the mode's definition gives for position i (and, for feedback modes, for the ciphertext so far): OFB, OFB8, G3413OFB, G3413CTR, NOFB, GOFB (first call), CFB, CFB8, CFB1, OCFB, NCFB, CFB16/32/64, G3413CFB, GCFB.", "quantifier": "all ciphers, IVs, messages, call splits, byte positions", "why_tests_cant": "position arithmetic in refill buffers over unbounded histories", "anchors": ["mode/ofb.go", "mode/ofb8.go", "mode/g3413ofb.go", "mode/g3413ctr.go", "mode/nofb.go", "mode/gofb.go", "mode/cfb.go", "mode/cfb8.go", "mode/cfb1.go", "mode/ocfb.go", "mode/ncfb.go", "mode/cfb16.go", "mode/cfb32.go", "mode/cfb64.go", "mode/g3413cfb.go", "mode/gcfb.go"]}
{"id": "C35", "title": "XORKeyStream terminates and guards its buffers", "statement": "XORKeyStream panics when dst is shorter than src. For block sizes up to 511 OFB returns; for larger block sizes OFB and G3413OFB loop forever on any non-empty input, and G3413CTR panics when its segment exceeds the block size (defects, shown for every such cipher).", "quantifier": "all ciphers, segments, buffers", "why_tests_cant": "non-termination cannot be observed by a finite test", "anchors": ["mode/ofb.go: refill", "mode/g3413ofb.go: refill", "mode/g3413ctr.go: refill"]}
{"id": "C36", "title": "GOFB counter arithmetic", "statement": "The GOST 28147 counter's second word advances by C1 modulo 2^32-1 in the standard's representation, except when the sum is exactly 2^32, where the code stores 0 instead of 1 (defect, shown by counterexample).", "quantifier": "all 32-bit counter values", "why_tests_cant": "one failing value out of 2^32", "anchors": ["mode/gofb.go"]}
{"id": "C37", "title": "CFB16, CFB32 and CFB64 shift-register behaviour", "statement": "With blocks of exactly two segments these modes compute standard k-bit CFB (see C34). With blocks of one segment (CFB64 over an 8-byte block cipher) the register never moves, so every block of every message is masked with the same E(IV); with other block sizes the result is not standard CFB (defects, proved for every cipher / shown by counterexample).", "quantifier": "all ciphers, IVs, messages, call splits", "why_tests_cant": "keystream reuse over every message; tests compare one round trip, which still succeeds", "anchors": ["mode/cfb16.go", "mode/cfb32.go", "mode/cfb64.go"]}
{"id": "C38", "title": "OCFB prefix quick check", "statement": "The OCFB decrypter accepts a prefix of block size + 2 bytes exactly when its CFB decryption under a zero IV repeats the last two bytes of the random block; otherwise it panics.", "quantifier": "all ciphers, prefixes", "why_tests_cant": "accept/reject boundary over all prefixes", "anchors": ["mode/ocfb.go: NewOCFBDecrypter"]}
{"id": "C39", "title": "GCFB key meshing", "statement": "Up to 1024 bytes GCFB is GOST CFB as RFC 4357 defines it; after that the register is re-derived from the IV of the previous meshing rather than from the current register, so it departs from RFC 4357 (defect, shown by counterexample).", "quantifier": "all cipher families, keys, IVs, messages", "why_tests_cant": "only visible beyond 1024 bytes", "anchors": ["mode/gcfb.go"]}
{"id": "C40", "title": "Key wrap with padding (RFC 5649)", "statement": "With a 128-bit cipher, the wrapPad encrypter writes the RFC 5649 ciphertext of any key whose length is a multiple of 8 (below 2^31), and the decrypter recovers keys of two or more semiblocks into any large enough buffer. Defects, stated exactly: unaligned keys - the ones the padding is for - panic; one-semiblock keys come back only into an 8-byte buffer and panic with a larger one; with a buffer of the padded length, an authentic ciphertext with correct zero padding is rejected and one with non-zero padding accepted (the check is inverted).", "quantifier": "all ciphers, IVs, keys, buffer lengths", "why_tests_cant": "n unbounded; depends on the buffer length as well as on the data", "anchors": ["mode/wrap_pad.go"]}
{"id": "C41", "title": "Byte-string helpers compute what they name", "statement": "ShiftLeft shifts by one bit; GfnDouble multiplies by x in GF(2^128) and panics on other lengths; ShiftLeftN into a zeroed buffer of the same length shifts by n bits, but into another buffer it leaves old bytes at the end (defect); RightXOR adds the shorter operand at the right end; SplitSize cuts into full pieces and one shorter rest; ConstantTimeAllZero holds exactly for all-zero strings.", "quantifier": "all byte strings and shift amounts", "why_tests_cant": "all lengths and values", "anchors": ["tool/bytes/bytes.go:ShiftLeft", "tool/bytes/bytes.go:GfnDouble", "tool/bytes/bytes.go:ShiftLeftN", "tool/bytes/bytes.go:RightXOR", "tool/bytes/bytes.go:SplitSize", "tool/alias/alias.go:ConstantTimeAllZero"]}
{"id": "C42", "title": "The ISO/IEC 9797-1 MACs compute their standard", "statement": "For every cipher and message: CBC-MAC, EMAC, retail MAC, MacDES, LMAC, TrCBC-MAC compute the CBC chain over the method-2 padding with the final transformation of their scheme, truncated to the requested size; constructors panic on sizes outside 1..BlockSize. LMAC ignores the size (defect). CBCR-MAC rotates right for complete messages but for padded ones drops the top bit of the chaining value, so flipping the top bit of the first byte of the last partial block never changes the tag: a forgery without the key (defect).", "quantifier": "all ciphers, keys, messages, tag sizes", "why_tests_cant": "messages are unbounded and the collision holds for every cipher", "anchors": ["mac/cbc_mac.go:MAC", "mac/emac.go:MAC", "mac/ansi_retail_mac.go:MAC", "mac/mac_des.go:MAC", "mac/lmac.go:MAC", "mac/tr_cbc_mac.go:MAC", "mac/cbcr_mac.go:MAC"]}
{"id": "C43", "title": "Speck is a block cipher for every key", "statement": "speck.NewCipher accepts exactly its key lengths, and for every such key Decrypt undoes Encrypt and Encrypt undoes Decrypt, exactly one block of dst is written, only the first block of src is read, and a src or dst shorter than a block panics.", "quantifier": "all keys, all blocks, all slice lengths", "why_tests_cant": "2^64 to 2^1024 blocks times all keys; one wrong table entry or round index shows on few of them", "anchors": ["cipher/speck"]}
{"id": "C44", "title": "Simon is a block cipher for every key", "statement": "simon.NewCipher accepts exactly its key lengths, and for every such key Decrypt undoes Encrypt and Encrypt undoes Decrypt, exactly one block of dst is written, only the first block of src is read, and a src or dst shorter than a block panics.", "quantifier": "all keys, all blocks, all slice lengths", "why_tests_cant": "2^64 to 2^1024 blocks times all keys; one wrong table entry or round index shows on few of them", "anchors": ["cipher/simon"]}
{"id": "C45", "title": "LEA is a block cipher for every key", "statement": "lea.NewCipher accepts exactly key lengths 16, 24 and 32, and for every such key Decrypt undoes Encrypt and Encrypt undoes Decrypt, exactly one block of dst is written, only the first block of src is read, and a src or dst shorter than a block panics.", "quantifier": "all keys, all blocks, all slice lengths", "why_tests_cant": "2^64 to 2^1024 blocks times all keys; one wrong table entry or round index shows on few of them", "anchors": ["cipher/lea"]}
{"id": "C46", "title": "Threefish is a block cipher on exact blocks", "statement": "For Threefish 256/512/1024 every key and tweak of the right lengths give a cipher whose Decrypt and Encrypt undo each other on sources of one block; a source shorter than a block panics. Defects stated exactly: with a longer source the words behind the block are copied from src over dst, and a dst shorter than a block is filled with a truncated block instead of being rejected.", "quantifier": "all keys, all blocks, all slice lengths", "why_tests_cant": "2^64 to 2^1024 blocks times all keys; one wrong table entry or round index shows on few of them", "anchors": ["cipher/threefish"]}
{"id": "C47", "title": "RC2 is a block cipher for every key and effective key length", "statement": "rc2.NewCipher panics exactly for an empty key or an effective key length outside 1..1024, never returns an error, and otherwise Decrypt undoes Encrypt and Encrypt undoes Decrypt, exactly one block of dst is written, only the first block of src is read, and a src or dst shorter than a block panics.", "quantifier": "all keys, all blocks, all slice lengths, all effective key lengths", "why_tests_cant": "2^64 to 2^1024 blocks times all keys; one wrong table entry or round index shows on few of them", "anchors": ["cipher/rc2/rc2.go:NewCipher", "cipher/rc2/rc2.go:expandKey"]}
{"id": "C48", "title": "RC5 is a block cipher for every key, word size and round count", "statement": "rc5.NewCipher accepts exactly key lengths 8/16/24/32, word sizes 16/32/64 and 8..127 rounds; for every such choice Decrypt undoes Encrypt and Encrypt undoes Decrypt, exactly one block of dst is written, only the first block of src is read, and a src or dst shorter than a block panics.", "quantifier": "all keys, all blocks, all slice lengths, all round counts and word sizes", "why_tests_cant": "2^64 to 2^1024 blocks times all keys; one wrong table entry or round index shows on few of them", "anchors": ["cipher/rc5/rc5.go:NewCipher"]}
{"id": "C49", "title": "RC6 is a block cipher for every key", "statement": "rc6.NewCipher accepts exactly 16-byte keys, and for every such key Decrypt undoes Encrypt and Encrypt undoes Decrypt, exactly one block of dst is written, only the first block of src is read, and a src or dst shorter than a block panics.", "quantifier": "all keys, all blocks, all slice lengths", "why_tests_cant": "2^64 to 2^1024 blocks times all keys; one wrong table entry or round index shows on few of them", "anchors": ["cipher/rc6/rc6.go:NewCipher"]}
{"id": "C50", "title": "HIGHT is a block cipher for every key", "statement": "hight.NewCipher accepts exactly 16-byte keys, and for every such key Decrypt undoes Encrypt and Encrypt undoes Decrypt, exactly one block of dst is written, only the first block of src is read, and a src or dst shorter than a block panics.", "quantifier": "all keys, all blocks, all slice lengths", "why_tests_cant": "2^64 to 2^128 blocks times all keys; one wrong table entry or round index shows on few of them", "anchors": ["cipher/hight/hight.go:NewCipher"]}
{"id": "C51", "title": "NOEKEON inverts for every key but wipes dst behind the block", "statement": "noekeon.NewCipher accepts exactly 16-byte keys, and for every such key Decrypt and Encrypt undo each other on sources of one block and a src or dst shorter than a block panics; defect stated exactly: with a longer src every further whole word of src becomes four zero bytes written over dst behind the block.", "quantifier": "all keys, all blocks, all slice lengths", "why_tests_cant": "2^64 to 2^128 blocks times all keys; one wrong table entry or round index shows on few of them", "anchors": ["cipher/noekeon/noekeon.go:noekeonCipher.Encrypt", "cipher/noekeon/utils.go:THETA"]}
{"id": "C52", "title": "GOST 28147-89 inverts for every key and S-box but wipes dst behind the block", "statement": "gost.NewCipher accepts exactly 32-byte keys with an S-box of 8 rows of 16 entries of any bytes, and then Decrypt and Encrypt undo each other on sources of one block and a src or dst shorter than a block panics; defect stated exactly: with a longer src every further whole word of src becomes four zero bytes written over dst behind the block.", "quantifier": "all keys, all blocks, all slice lengths, all S-boxes", "why_tests_cant": "2^64 to 2^128 blocks times all keys; one wrong table entry or round index shows on few of them", "anchors": ["cipher/gost/gost.go:NewCipher", "cipher/gost/gost.go:gostCipher.Encrypt"]}
{"id": "C53", "title": "Magma is a block cipher for every key", "statement": "magma.NewCipher accepts exactly 32-byte keys, and for every such key Decrypt undoes Encrypt and Encrypt undoes Decrypt, exactly one block of dst is written, only the first block of src is read, and a src or dst shorter than a block panics.", "quantifier": "all keys, all blocks, all slice lengths", "why_tests_cant": "2^64 to 2^128 blocks times all keys; one wrong table entry or round index shows on few of them", "anchors": ["cipher/magma/magma.go:NewCipher"]}
{"id": "C54", "title": "EC-GDSA verifies what it signed and exactly the equation's pairs", "statement": "Whatever ecgdsa Sign/SignBytes returns is accepted by Verify/VerifyBytes; Verify accepts exactly the pairs the EC-GDSA equation yields for some nonce. Defects stated exactly: Verify panics exactly when r is a positive multiple of N (reachable from bytes: r = N), and s is accepted modulo N without a bound.", "quantifier": "all curves obeying the group laws, digests, keys, messages, random sources", "why_tests_cant": "algebraic identity over large groups; failing cases have negligible density and are never hit by random tests", "anchors": ["pubkey/ecgdsa/ecgdsa.go:SignToRS", "pubkey/ecgdsa/ecgdsa.go:VerifyWithRS", "pubkey/ecgdsa/ecgdsa.go:VerifyBytes"]}
{"id": "C55", "title": "EC-SDSA, EC-OSDSA and EC-FSDSA verify what they signed in the first round", "statement": "A signature made with the first nonce is the equation's pair and is accepted; Verify accepts exactly the equation's pairs; VerifyBytes never panics. Defects stated exactly: a retry hashes on without Reset, so Sign can return a signature Verify refuses; VerifyWithRS panics exactly when r exceeds the digest (point) width.", "quantifier": "all curves obeying the group laws, digests, keys, messages, random sources", "why_tests_cant": "algebraic identity over large groups; failing cases have negligible density and are never hit by random tests", "anchors": ["pubkey/ecsdsa/ecsdsa.go:SignToRS", "pubkey/ecsdsa/ecsdsa.go:VerifyWithRS", "pubkey/ecosdsa/ecosdsa.go", "pubkey/ecfsdsa/ecfsdsa.go"]}
{"id": "C56", "title": "EC-KCDSA verifies what it signed", "statement": "Whatever eckcdsa Sign returns with r other than 0 is accepted by Verify, also in bytes; Verify accepts exactly the equation's pairs and never panics. Defect stated exactly: Sign can return r = 0, which Verify refuses.", "quantifier": "all curves obeying the group laws, digests, keys, messages, random sources", "why_tests_cant": "algebraic identity over large groups; failing cases have negligible density and are never hit by random tests", "anchors": ["pubkey/eckcdsa/eckcdsa.go:SignToRS", "pubkey/eckcdsa/eckcdsa.go:SignUsingK", "pubkey/eckcdsa/eckcdsa.go:VerifyWithRS"]}
{"id": "C57", "title": "EC-RDSA verifies what it signed in the first round", "statement": "A signature made with the first nonce is the GOST R 34.10 pair and is accepted, in both byte orders of the digest; Verify accepts exactly the equation's pairs and never panics. Defect stated exactly: when the first s is 0 the message is hashed twice and the returned signature can be refused.", "quantifier": "all curves obeying the group laws, digests, keys, messages, random sources", "why_tests_cant": "algebraic identity over large groups; failing cases have negligible density and are never hit by random tests", "anchors": ["pubkey/ecrdsa/ecrdsa.go:SignToRS", "pubkey/ecrdsa/ecrdsa.go:VerifyWithRS"]}
{"id": "C58", "title": "EC key generation and import/export", "statement": "GenerateKey returns D in ]0,N[ with the public point D*G (D^-1*G for EC-GDSA and EC-KCDSA); exporting and importing D gives the key back. Defects stated exactly: import refuses D = N-1, which GenerateKey can return, and accepts D = 0, with which no scheme signs.", "quantifier": "all curves, random sources, keys", "why_tests_cant": "one value in 2^256", "anchors": ["pubkey/ecgdsa/ecgdsa.go:GenerateKey", "pubkey/ecgdsa/ecgdsa.go:NewPrivateKey", "pubkey/ecgdsa/ecgdsa.go:PrivateKeyTo", "pubkey/ecsdsa/ecsdsa.go:NewPrivateKey"]}
{"id": "C59", "title": "Saved hash states resume", "statement": "For SM3 and Streebog, unmarshalling what MarshalBinary wrote after any history gives a state that continues to every digest the original would; malformed data is refused exactly on the stated conditions. Defect stated exactly: Streebog's UnmarshalBinary accepts data of 273 bytes and more, and exactly then the next Sum panics.", "quantifier": "all histories before and after the save, all data", "why_tests_cant": "state equivalence over unbounded continuations", "anchors": ["hash/sm3/digest.go:MarshalBinary", "hash/sm3/digest.go:UnmarshalBinary", "hash/gost/gost34112012/hash.go:MarshalBinary", "hash/gost/gost34112012/hash.go:UnmarshalBinary"]}
{"id": "C60", "title": "BELT is a block cipher for 16, 24 and 32 byte keys", "statement": "NewCipher accepts exactly keys of 16, 24 and 32 bytes; Encrypt and Decrypt are mutually inverse on 16-byte blocks under every accepted key. Defect stated exactly: cipher/belt rotates the wrong way and so is not the BELT of STB 34.101.31, while the copy inside hash/belt is.", "quantifier": "all keys and blocks", "why_tests_cant": "2^128 blocks under 2^256 keys; a wrong rotation still round-trips", "anchors": ["cipher/belt/belt.go", "cipher/belt/utils.go", "hash/belt/utils.go"]}
{"id": "C61", "title": "Key trees return the derived key whatever was derived before", "statement": "TLSTree.Derive and ESPTree.Derive return, in every history of calls, the key derived from the root and the argument alone: the cache is never visible. ESPTree does; its Derive panics exactly on arguments other than 5 bytes. Defect stated exactly: a fresh TLSTree returns 32 zero bytes for every nonzero sequence number that all three masks clear, until it has been called with another number; so for the first call Derive(1) under five of the six published parameter sets, whatever the root key.", "quantifier": "all roots, parameters, histories of sequence numbers", "why_tests_cant": "cache state over unbounded histories", "anchors": ["hash/gost/gost34112012256/tlstree.go", "hash/gost/gost34112012256/esptree.go", "hash/gost/gost34112012256/kdf.go"]}
{"id": "C62", "title": "The Rabin fingerprint is the remainder of the last window of the message", "statement": "For every polynomial of degree at least 8 and every window, in every history of Write, Sum and Reset the value is the remainder, modulo the polynomial over GF(2), of the last `window` bytes written since the last Reset (of all of them when the window is 0); Sum appends its little-endian bytes. NewTable panics exactly for polynomials of degree less than 8.", "quantifier": "all polynomials below x^64, all windows, all messages, all histories", "why_tests_cant": "table-driven rolling update over unbounded streams and 2^64 polynomials", "anchors": ["hash/rabin/rabin.go:NewTable", "hash/rabin/rabin.go:Write", "hash/rabin/rabin.go:Sum64", "hash/rabin/poly.go"]}
{"id": "C63", "title": "The chunker cuts a stream by content only", "statement": "With any reader that reports the end of the stream after the data, whatever lengths its reads have and whether or not it can discard, Next returns the lengths of the content-defined chunks: each is the shortest prefix of at least the minimum that reaches the maximum or whose last window has a fingerprint ending in ones. They are unique, cover the stream, respect the bounds (a short last one excepted) and depend on nothing before the preceding boundary. Defects stated exactly: when the minimum exceeds the window and the last chunk ended by its content (or the stream is empty), Next returns 0 and no error once before io.EOF; a reader that returns io.EOF together with its last bytes makes Next drop data.", "quantifier": "all streams, all read lengths, all windows and bounds", "why_tests_cant": "circular buffer and refill points over unbounded streams and all read schedules", "anchors": ["hash/rabin/chunker.go:NewChunker", "hash/rabin/chunker.go:Next", "hash/rabin/chunker.go:more", "hash/rabin/chunker.go:discard"]}
{"id": "C64", "title": "ZUC-128 and ZUC-256 XOR the published keystream", "statement": "For every key and IV of the right length the cipher objects XOR the words of the generator over GF(2^31-1) given by the standard (for ZUC-256 with the constants of the tag length), and a second object fed the same call lengths decrypts. Each call starts at a word boundary, so histories whose calls (but the last) are multiples of 4 bytes may be joined and cut at will; other cuts change the result (defect, shown by counterexample). A key of another length is an error, an IV of another length panics.", "quantifier": "all keys, IVs, messages, call histories", "why_tests_cant": "31-bit modular arithmetic by shifts and masks over unbounded streams", "anchors": ["gm/zuc/zuc.go", "gm/zuc/zuc256.go", "gm/zuc/cipher.go", "gm/zuc/utils.go"]}
{"id": "C65", "title": "The buffering ZUC object encrypts whatever way the data is cut", "statement": "Over any history of Write(in, out) calls in which each out has room for the complete words it is due, followed by Sum, the bytes put at the start of the outs followed by what Sum appends are the XOR of all the data with the keystream, and the rest of each out is untouched. A Write whose out has less room panics, also when out is as long as in.", "quantifier": "all keys, IVs, data, cuts, buffer lengths", "why_tests_cant": "carry-over of up to three bytes across unbounded histories", "anchors": ["gm/zuc/eea.go:Zuc.Write", "gm/zuc/eea.go:Zuc.Sum"]}
{"id": "C66", "title": "The ZUC MACs", "statement": "Zuc256Mac: for every key, IV, tag length and every cut of the message into Writes and a final Sum of nbits bits, the tag is that of the ZUC-256 specification for the whole bit string. ZucMac and EiaGenerateMac: likewise independent of the cut, but the tag is 128-EIA3 over a keystream whose first word is used twice, which is not 128-EIA3 (defect: the first published test fails). Reset does not restore the start and a second Sum gives another tag (defects, shown by counterexample).", "quantifier": "all keys, IVs, messages of any bit length, cuts", "why_tests_cant": "bit-serial accumulation over unbounded messages; the repository's own EIA and EEA table tests run zero iterations, since len(key)/len(key[0]) is 3/16", "anchors": ["gm/zuc/zuc_mac.go", "gm/zuc/zuc256_mac.go", "gm/zuc/eea.go:EiaGenerateMac"]}
{"id": "C67", "title": "128-EEA3 encrypts exactly nbits bits", "statement": "EeaEncrypt with separate buffers XORs bit i of the input with bit i of the keystream of COUNT, BEARER (mod 32) and DIRECTION (mod 2) for i < nbits, clears the remaining bits of the last word and leaves the other words of out alone; applying it again restores the nbits bits. With out = in the data is lost: every bit of the words touched becomes 0, whatever the input (defect).", "quantifier": "all keys, counts, bearers, directions, bit lengths, buffers", "why_tests_cant": "bit boundary and aliasing over all lengths; the repository's table test runs zero iterations", "anchors": ["gm/zuc/eea.go:EeaEncrypt", "gm/zuc/eea.go:ZucState.SetEeaKey"]}
{"id": "C68", "title": "Grain-128AEAD: Seal and Open, the associated-data header, and Seal in place", "statement": "NewCipher of the grain package accepts exactly 16-byte keys; Seal and Open panic unless the nonce has 12 bytes, and Open returns an error for fewer than 8 bytes. Let H be the length code followed by the associated data. On any object made by NewCipher and used for any sequence of Seals and Opens before, Seal into a separate buffer returns dst, the plaintext XOR the Grain-128AEAD keystream from position |H| on, and the 64-bit Grain tag of H followed by the plaintext; Open returns the decryption exactly if the last 8 bytes are the tag of H followed by it, and an error otherwise; hence Open undoes Seal. The length code is the DER length of the standard for at most 127 bytes of associated data and differs from it for every longer length: the number of length bytes is written instead of the length. Therefore, beyond 127 bytes, moving the first k plaintext bytes to the end of the associated data (as long as the length takes as many bytes) turns a sealed message into another one that Open accepts, without the key. Seal in place (dst = plaintext[:0]) authenticates a changed text: the first byte is replaced by its ciphertext if |H| is odd, the last if |H| plus the plaintext length is odd; if both are even the result is right, and otherwise Open can refuse what Seal made.", "quantifier": "every key, nonce, destination, plaintext, ciphertext, tag and associated data of fewer than 2^63 bytes, every history of Seal and Open calls on the object", "why_tests_cant": "the specification is a bit-serial pair of registers, the code moves 32 bits at a time; tests use a fixed list of short vectors, never 128 bytes of associated data and never a buffer sealed in place", "anchors": ["cipher/grain/grain.go:NewCipher", "cipher/grain/grain.go:Seal", "cipher/grain/grain.go:Open", "cipher/grain/utils.go:encode"]}
{"id": "C69", "title": "Grain-128 stream cipher: one keystream over all calls", "statement": "NewStreamCipher returns an error unless the key has 16 bytes, panics for a nonce of fewer than 12 bytes and ignores nonce bytes after the twelfth. Otherwise all XORKeyStream calls with a large enough destination together XOR their data with the Grain-128AEAD keystream from its first byte on, however the data are cut, odd lengths included, so a second object with the same key and nonce undoes the first under any two cuts; a destination shorter than the source panics.", "quantifier": "every key, nonce and history of calls with byte data of any lengths", "why_tests_cant": "the code emits two bytes per step and carries one over between calls of odd length; which byte is carried depends on the whole history", "anchors": ["cipher/grain/stream.go:NewStreamCipher", "cipher/grain/stream.go:XORKeyStream"]}
{"id": "C70", "title": "Enigma: construction always ends, the machine is self-inverse and never maps a byte to itself", "statement": "NewCipherWithSeed returns an error unless the key has 13 bytes; for every 13-byte key and every seed it ends without a panic (the division by the slot number 0 and an endless search for a free slot cannot happen) and gives two mutually inverse byte tables and a fixed-point-free involution. All XORKeyStream calls with a large enough destination together apply to byte p the map rotor, reflector, inverse rotor with offsets p mod 256 and p/256 mod 256, however the data are cut. So a second object undoes the first under any two cuts, no byte is ever encrypted to itself, and the maps repeat after 65536 bytes. If the key contains a zero byte, the seed has no effect (two seeds give the same object).", "quantifier": "every 13-byte key, every seed, every history of calls", "why_tests_cant": "termination and absence of a division by zero depend on a parity argument over all pseudo-random choices; 2^104 keys", "anchors": ["cipher/enigma/enigma.go:NewCipherWithSeed", "cipher/enigma/enigma.go:expandKey", "cipher/enigma/enigma.go:XORKeyStream"]}
{"id": "C71", "title": "Spritz: permutation state, additive keystream, and what an IV does", "statement": "NewCipher and NewCipherWithIV fail exactly for an empty key. Over any history of Encrypt and Decrypt calls the state array stays a permutation of 0..255 and the absorb counter at most 128, so no index is out of range. With a nil IV all calls together add one keystream modulo 256 (Decrypt subtracts it), so Decrypt on a fresh object undoes Encrypt under any two cuts. With an IV, even an empty one, this holds when both sides cut the text at the same places, and not otherwise (each call absorbs the IV again: shown by counterexample). Hash(m, r) returns r bytes.", "quantifier": "every key, IV, message and history of calls with byte data", "why_tests_cant": "state invariant over unbounded histories; the tests encrypt in one call", "anchors": ["cipher/spritz/spritz.go:NewCipher", "cipher/spritz/spritz.go:NewCipherWithIV", "cipher/spritz/spritz.go:Encrypt", "cipher/spritz/spritz.go:Decrypt", "cipher/spritz/hash.go:Hash"]}
{"id": "C72", "title": "WAKE: calls of whole words are one autokey encryption, other cuts lose bytes", "statement": "NewCipher fails exactly for keys that are not 16 bytes long. Calls whose lengths are multiples of 4, followed by one of any length, together encrypt (decrypt) the words of the text with the four-register WAKE autokey started from the four key words, however the text is cut at word boundaries, so another object undoes it for any other such cut. When both sides cut at the same places, Decrypt undoes Encrypt for any cut at all. For other cuts it does not: the bytes of an unfinished word are forgotten between calls (shown by counterexample).", "quantifier": "every key and every history of calls with byte data, each shorter than 2^31 bytes", "why_tests_cant": "autokey state over unbounded histories; the tests use a single call", "anchors": ["cipher/wake/wake.go:NewCipher", "cipher/wake/wake.go:Encrypt", "cipher/wake/wake.go:Decrypt", "cipher/wake/wake.go:encrypt", "cipher/wake/wake.go:decrypt"]}
{"id": "C73", "title": "PBKDF2: every byte of the key is the byte RFC 8018 gives; gost_pbkdf2 and long passwords, shared memory", "statement": "For every PRF with a fixed output length, every salt and iteration count (below 1 counts as 1) and every non-negative length, pbkdf2.Key returns exactly the first keyLen bytes of the blocks T_i = U_1 xor ... xor U_c of RFC 8018, so a shorter key is a prefix of a longer one; a negative length panics. gost_pbkdf2.Key ends and returns PBKDF2 with the PRF H(K^5c, H(K^36, m)), where K is the password zero-padded beyond its length to a multiple of the block size: for passwords shorter than a block this is PBKDF2-HMAC, for a password of one whole block it is not (counterexample). It writes only into spare capacity behind the password and the salt slices; when the salt lies in the spare capacity of the password (both cut from one buffer), the key is computed from a salt overwritten by zeros (counterexample).", "quantifier": "every PRF or hash of fixed output size, salt, password, iteration count, length, and placement of the two slices in memory", "why_tests_cant": "all lengths, counts and slice layouts; the vectors use passwords shorter than a block and separate slices", "anchors": ["kdf/pbkdf2/pbkdf2.go:Key", "kdf/gost_pbkdf2/gost_pbkdf2.go:Key"]}
{"id": "C74", "title": "PKCS #12 key derivation is the one of RFC 7292 B.2", "statement": "For every hash of output size u, block size v > 0, salt and password (empty ones too), iteration count, ID byte and non-negative size, pbkdf.Key returns the first size bytes of the blocks A_1, A_2, ... of RFC 7292 B.2, the diversified input being incremented blockwise modulo 2^(8v) with every carry and every leading zero right; a shorter key is a prefix of a longer one; a negative size panics.", "quantifier": "every hash, u, v, salt, password, iteration count, ID, size", "why_tests_cant": "carries and short big.Int encodings in the increment occur with probability 2^-8 per block or less; the vectors cover a few", "anchors": ["kdf/pbkdf/pbkdf.go:Key", "kdf/pbkdf/pbkdf.go:fillWithRepeats"]}
{"id": "C75", "title": "SP 800-108 key derivation in counter, feedback and double-pipeline mode", "statement": "For every PRF of fixed output length, label, context, IV, counter size 0..8 and length below 2^60, CounterModeKey, FeedbackModeKey and PipelineModeKey end and return the first bytes of the SP 800-108 blocks, with the counter big-endian in counterSize bytes and the bit length in its shortest big-endian coding. Other counter sizes and negative lengths panic. A counter overflow is not refused: in counter mode the key repeats after 256^counterSize blocks, with counterSize 0 after one block.", "quantifier": "every PRF, key, label, context, iv, counter size and length", "why_tests_cant": "each length and counter size takes another branch of fillL and incCtr; overflow needs keys of many blocks", "anchors": ["kdf/kbkdf/kbkdf.go:CounterModeKey", "kdf/kbkdf/kbkdf.go:FeedbackModeKey", "kdf/kbkdf/kbkdf.go:PipelineModeKey", "kdf/kbkdf/kbkdf.go:fillL", "kdf/kbkdf/kbkdf.go:incCtr"]}
{"id": "C76", "title": "KDF_TREE_GOSTR3411 gives the blocks of RFC 7836 up to 254 and hangs at the documented maximum of 255", "statement": "For every hash and every length of 1 to 254 digests, kdftree.Key ends and returns the concatenation of HMAC(secret, i || label || 0 || seed || L) for i = 1, 2, ... The length of exactly 255 digests is accepted but the call never returns, because the uint8 counter cannot exceed 255. Every other length panics.", "quantifier": "every hash, secret, label, seed and length", "why_tests_cant": "non-termination cannot be observed by a test, and only one length shows it", "anchors": ["kdf/kdftree/kdftree.go:Key"]}
{"id": "C77", "title": "prf+ and the X9.63 derivation give every block with its counter", "statement": "gost_prfplus.Key returns an error exactly for an empty password or salt, and otherwise the first keyLen bytes of T1 | T2 | ... with T(i+1) = PRF(T(i) | salt | i+1) of RFC 7296 (counter modulo 256). smkdf.Key returns the first size bytes of H(z | 1) | H(z | 2) | ... with 4-byte counters for every size up to 2^32-2 digests and panics for longer and negative sizes.", "quantifier": "every hash, input and length", "why_tests_cant": "boundaries between blocks, lengths below one digest and exact multiples are separate branches", "anchors": ["kdf/gost_prfplus/gost_prfplus.go:Key", "kdf/smkdf/smkdf.go:Key"]}
{"id": "C78", "title": "OpenPGP S2K hashes the right number of bytes; KeyWithTune with iterations 0 never returns", "statement": "For every hash, password, salt, count (with a salt unless count <= 1) and length, pgp_s2k.Key ends and returns the first keylen bytes of H(0^i || first max(count, len) bytes of salt||password repeated), i = 0, 1, ...; a count above 1 without salt panics. The count table is the formula of RFC 4880 for all 256 codes; encodeCount gives the first code not below the wanted count (255 if none), and encoding a decoded code gives it back. KeyWithTune with iterations = 0 never returns; with another count it is Key.", "quantifier": "every hash, password, salt, count, length; every code and every count", "why_tests_cant": "all lengths and counts; non-termination", "anchors": ["kdf/pgp_s2k/pgp_s2k.go:Key", "kdf/pgp_s2k/pgp_s2k.go:KeyWithTune", "kdf/pgp_s2k/iters.go:encodeCount", "kdf/pgp_s2k/iters.go:decodeCount", "kdf/pgp_s2k/s2k_family.go:tune"]}
{"id": "C79", "title": "bcrypt_pbkdf spreads the blocks over the key without gap or overlap", "statement": "bcrypt_pbkdf.Key returns an error exactly for rounds < 1, an empty password, an empty or longer than 2^20 byte salt, or keyLen > 1024 (for non-negative keyLen), and otherwise a key whose byte p is byte p/nb of block p mod nb, nb being the number of blocks, block i the sum over rounds of the chained bcrypt hashes of SHA-512(salt || i+1).", "quantifier": "every password, salt, round count and length, for any 32-byte bcrypt hash function", "why_tests_cant": "the interleaving differs for every number of blocks", "anchors": ["kdf/bcrypt_pbkdf/bcrypt_pbkdf.go:Key"]}
{"id": "C80", "title": "LM-OTS signs the base-2^w digits of the digest and of its checksum, and no digest dominates another", "statement": "For every usable parameter set and digest, Expand returns the digits of the digest to the base 2^w, most significant first, followed by the digits of the checksum of RFC 8554 4.4, and nothing else. Of two different digests each has a coefficient smaller than that of the other. All registered parameter sets (SHA-256 and SM3, w = 1, 2, 4, 8, heights 5 to 25) are usable.", "quantifier": "every digest, every pair of digests, every parameter set, any 32-byte hash", "why_tests_cant": "the checksum argument is about all pairs of 2^256 digests", "anchors": ["pubkey/lms/utils.go:Coefs", "pubkey/lms/utils.go:Cksm", "pubkey/lms/utils.go:Expand", "pubkey/lms/lmots_params.go:LmotsParam", "pubkey/lms/lms_params.go:LmsParam"]}
{"id": "C81", "title": "LM-OTS keys sign once, the signature is that of RFC 8554 and verifies, and forging needs more than the signature gives away", "statement": "For every seed, identifier, leaf number, message and nonce, the public key is the value of RFC 8554 and Sign returns the chain values at the coefficients, which verify, encoded or not. In every sequence of calls the first call that gets a nonce signs and every other one fails; a call whose random source fails leaves the key usable. A nonce option of the wrong length uses up the key for a signature that never verifies. Verify accepts exactly the encodings whose chains, followed to the end, hash to the public key; an accepted signature has the chain ends of the key or shows a collision of the hash, and for another digest contains a chain value below one that the issued signature gives away.", "quantifier": "every hash, seed, id, q, message, nonce and sequence of calls; every byte string given to Verify", "why_tests_cant": "one-time use is about all histories; acceptance is about all byte strings", "anchors": ["pubkey/lms/lmots.go:NewLmotsPrivateKeyFromSeed", "pubkey/lms/lmots.go:SignToSignature", "pubkey/lms/lmots.go:computeRoot", "pubkey/lms/lmots.go:VerifyWithSignature", "pubkey/lms/lmots.go:RecoverPublicKey", "pubkey/lms/lmots.go:Verify"]}
{"id": "C82", "title": "LM-OTS signatures and public keys have one encoding each and parsing never panics", "statement": "Parsing the encoding of a signature or public key returns it; whatever parses is the encoding of the result; the parsers return an error, never panic, for every byte string.", "quantifier": "every signature, public key and byte string", "why_tests_cant": "all byte strings of all lengths", "anchors": ["pubkey/lms/lmots.go:NewLmotsSignatureFromBytes", "pubkey/lms/lmots.go:NewLmotsPublicKeyFromBytes", "pubkey/lms/lmots.go:ToBytes"]}
{"id": "C83", "title": "The LMS authentication tree holds the right hash in every node", "statement": "For every height up to 31 (as registered: 5 to 25), seed and identifier, GeneratePKTree fills each of the 2^(h+1)-1 nodes with the hash of RFC 8554 5.3 of its leaf or children, and the public key is the root.", "quantifier": "every hash, height, seed, identifier and node", "why_tests_cant": "trees of 2^25 leaves cannot be built in a test; the in-place climb is right for every leaf by induction", "anchors": ["pubkey/lms/lms.go:GeneratePKTree", "pubkey/lms/lms.go:GenerateKeyFromSeed", "pubkey/lms/lms.go:GenerateKey"]}
{"id": "C84", "title": "An LMS key never uses a leaf twice in a history with saving and loading, and makes exactly 2^h signatures", "statement": "In every sequence of Sign, save-and-load and Precompute operations, the i-th signature made is the RFC 8554 signature with leaf i and verifies; there are exactly as many as calls that got a nonce, up to 2^h; then every call fails. The loaded key equals the saved one when the seed has M bytes; a longer seed given to GenerateKeyFromSeed is silently cut, so that the loaded key has another public key, and a shorter one cannot be loaded. Loading an old copy signs again with a used leaf.", "quantifier": "every hash, parameter set, seed, and every sequence of operations", "why_tests_cant": "state over unbounded histories", "anchors": ["pubkey/lms/lms.go:SignToSignature", "pubkey/lms/lms.go:incrementQ", "pubkey/lms/lms.go:Precompute", "pubkey/lms/lms.go:NewPrivateKeyFromBytes", "pubkey/lms/lms.go:ToBytes", "pubkey/lms/lms.go:Q"]}
{"id": "C85", "title": "LMS Verify accepts exactly the signatures whose path leads to the public key, but panics on some lengths", "statement": "Verify accepts exactly the encodings of well-formed signatures of the key's parameter sets whose recovered one-time key, hashed up the path, gives the public key; an accepted signature under a generated key has the path and chain ends of that key or shows two inputs with one hash. Signatures and public keys have one encoding each. Verify and NewSignatureFromBytes panic exactly when the input has at least 8 bytes, a known LM-OTS code and a length strictly between the one-time signature length L and L + 8.", "quantifier": "every public key, message and byte string", "why_tests_cant": "all byte strings; the panic needs one of seven lengths with a valid type code", "anchors": ["pubkey/lms/lms.go:Verify", "pubkey/lms/lms.go:VerifyWithSignature", "pubkey/lms/lms.go:NewSignatureFromBytes", "pubkey/lms/lms.go:NewPublicKeyFromBytes", "pubkey/lms/lms.go:NewSignature"]}
{"id": "C86", "title": "HSS keys sign 2^h times with the leaves of the lowest tree in order, across saving and loading; the upper levels are not those of RFC 8554", "statement": "For every list of 1 to 5 levels and every history of Sign calls with save-and-load in between, call i returns a signature that verifies and uses leaf i of the lowest tree, until its 2^h leaves are used; then every call fails, no matter how many leaves the upper trees have left. Other numbers of levels are refused. The signatures of the upper levels are on a hash of the next public key instead of the key, so a signature made after RFC 8554 is refused.", "quantifier": "every level list, seed, random input and history of calls", "why_tests_cant": "state over histories with several levels; interoperability was not tested", "anchors": ["pubkey/lms/hss.go:GenerateHSSKey", "pubkey/lms/hss.go:Sign", "pubkey/lms/hss.go:Verify", "pubkey/lms/hss.go:hssDigest", "pubkey/lms/hss.go:NewHSSPrivateKeyFromBytes", "pubkey/lms/hss.go:ToBytes"]}
{"id": "C87", "title": "HSS encodings: public keys have one encoding; Verify and key loading panic on malformed input", "statement": "HSS public keys have one encoding and parsing them never panics. Verify of a key with 2 to 5 levels panics for every signature with the right level count and fewer than 8 bytes after it. NewHSSPrivateKeyFromBytes panics for every encoding of 6 or more level keys.", "quantifier": "every public key and byte string of these forms", "why_tests_cant": "all byte strings; nobody tests truncated signatures of multi-level keys", "anchors": ["pubkey/lms/hss.go:Verify", "pubkey/lms/hss.go:parseSignature", "pubkey/lms/hss.go:NewHSSPrivateKeyFromBytes", "pubkey/lms/hss.go:NewHSSPublicKeyFromBytes"]}
{"id": "C88", "title": "SM2 signing returns a signature that verifies, except when r is zero or the key is N-1", "statement": "For every private key D below N-1, digest and random source, signing does not panic, and a returned pair satisfies the signing equation of GB/T 32918.2, with s in [1,N-1]; Verify accepts it if and only if r is not zero. The same holds for SignBytes/VerifyBytes (two fixed-width halves) and for the ASN.1 forms. The standard redraws when r = 0; the code returns that pair. GenerateKey can return D = N-1, with which no call of Sign ever succeeds.", "quantifier": "every key, message, identity and random source, any hash, any curve of cofactor one", "why_tests_cant": "the r = 0 and D = N-1 cases have probability 2^-256 and are never drawn by a test", "anchors": ["gm/sm2/sm2.go:signUsingK", "gm/sm2/sm2.go:sign", "gm/sm2/sm2.go:SignBytes", "gm/sm2/sm2.go:VerifyBytes", "gm/sm2/sm2.go:GenerateKey", "gm/sm2/sm2.go:randFieldElement"]}
{"id": "C89", "title": "SM2 verification accepts exactly the pairs of the signing equation", "statement": "Verify with the public key D*G accepts (r, s) for a digest if and only if r and s are in [1,N-1], r+s is not 0 mod N and some k gives this pair by the signing equation; otherwise it returns false without a panic. Identities of 8192 bytes or more are refused. A public point that is not on the curve (and not (0,0)) makes Verify panic once r, s, r+s are in range. For the public point at infinity, which NewPrivateKey(0) yields, anyone can compute accepted signatures.", "quantifier": "every key, digest, message, identity and pair of integers", "why_tests_cant": "acceptance is about all pairs of integers", "anchors": ["gm/sm2/sm2.go:verify", "gm/sm2/sm2.go:VerifyWithRS", "gm/sm2/sm2curve/sm2curve.go:pointFromAffine"]}
{"id": "C90", "title": "The SM2 identity digest is that of the standard and binds identity, key and message", "statement": "CalculateZA hashes ENTL, the identity, a, b, the base point and the public key at full width, with the default identity for an empty one in signatures, and refuses 8192 bytes or more. Equal message digests mean equal identity, public key and message, or a collision of the hash. SM2's constants have no leading zero byte, so that writing them without padding agrees with the standard.", "quantifier": "every identity, public key and message", "why_tests_cant": "injectivity of the encoding is about all pairs of inputs", "anchors": ["gm/sm2/sm2.go:CalculateZA", "gm/sm2/sm2.go:calculateZA", "gm/sm2/sm2.go:calculateHash", "gm/sm2/utils.go:bigIntToBytes"]}
{"id": "C91", "title": "SM2 decryption inverts encryption in both orders and in ASN.1, and the ciphertext is the standard's", "statement": "For every key pair, non-empty message (within the KDF's limit) and random source, a text returned by Encrypt, EncryptUsingK or EncryptASN1 decrypts to the message. The text is 4, k*G, C3, C2 (or C2, C3) of GB/T 32918.4 for some k in [1,N-1]. The empty message can never be encrypted, with any randomness.", "quantifier": "every key, message, mode and random source", "why_tests_cant": "the property ranges over all messages and all random sources", "anchors": ["gm/sm2/sm2.go:Encrypt", "gm/sm2/sm2.go:Decrypt", "gm/sm2/sm2.go:encrypt", "gm/sm2/sm2.go:encryptUsingK", "gm/sm2/sm2.go:decrypt", "gm/sm2/marshal.go:marshalCipherBytes", "gm/sm2/marshal.go:marshalCipherASN1"]}
{"id": "C92", "title": "SM2 decryption accepts exactly sealed texts and panics exactly on three kinds of input", "statement": "Decrypt returns M if and only if the input is 4, a point of the curve or (0,0), and C2, C3 sealing M under D times that point. It panics exactly on the empty string, on 4 followed by one byte less than C1 and C3 take, and on a C1 off the curve; every other input is an error. Texts with C1 = (0,0) are not refused: they decrypt alike under every private key. Two texts with equal C1 and C3 that both decrypt carry the same message or show a hash collision. DecryptASN1 takes coordinates by absolute value and panics on those that do not fit.", "quantifier": "every byte string, every private key, both modes", "why_tests_cant": "acceptance and panics are about all byte strings", "anchors": ["gm/sm2/sm2.go:Decrypt", "gm/sm2/sm2.go:decrypt", "gm/sm2/marshal.go:unmarshalCipherBytes", "gm/sm2/marshal.go:unmarshalCipherASN1", "gm/sm2/sm2.go:DecryptASN1"]}
{"id": "C93", "title": "The SM2 KeyExchange object: both sides get the standard's key and accept only the standard's confirmations", "statement": "For all long-term and ephemeral secrets and identities whose shared point is finite, the two KeyExchange objects end with the same key, that of GB/T 32918.3 with w = ceil(ceil(log2 N)/2)-1, and each accepts the confirmation of the other. ConfirmResponder returns a key exactly for a finite shared point and an empty or exactly matching tag; ConfirmInitiator exactly for a nil or exactly matching tag. An ephemeral point off the curve is an error on both sides.", "quantifier": "all secrets, identities, key lengths, tags and object states", "why_tests_cant": "agreement is about all secrets, rejection about all tags", "anchors": ["gm/sm2/keyexchange.go:NewKeyExchange", "gm/sm2/keyexchange.go:Init", "gm/sm2/keyexchange.go:Repond", "gm/sm2/keyexchange.go:ConfirmResponder", "gm/sm2/keyexchange.go:ConfirmInitiator", "gm/sm2/keyexchange.go:mqv", "gm/sm2/keyexchange.go:avf"]}
{"id": "C94", "title": "KeyExchangeA and KeyExchangeB agree, but deviate from the standard in four ways", "statement": "The two functions return the same key and the same two confirmations for all secrets; the shared point is the standard's for w = 127. The coordinates are hashed without leading zeros and the responder's ephemeral point before the initiator's, so the confirmations are not the standard's. An infinite shared point is not refused, although the key is then computed from public values. An identity of the second party of 8192 bytes or more is silently left out: all such identities give one key.", "quantifier": "all secrets, identities and key lengths", "why_tests_cant": "agreement is about all secrets", "anchors": ["gm/sm2/key_exchange.go:KeyExchangeA", "gm/sm2/key_exchange.go:KeyExchangeB", "gm/sm2/key_exchange.go:keyExchange", "gm/sm2/key_exchange.go:keXHat"]}
{"id": "C95", "title": "SM2 keys as bytes: round trips, ranges and refusals", "statement": "NewPrivateKey accepts exactly the numbers below N-1, zero included, and pairs D with D*G; PrivateKeyTo is fixed-width and its result gives the key back. GenerateKey returns D in [1,N-1] or fails for want of random bytes. NewPublicKey accepts exactly 4, X, Y at full width for finite points of the curve, and PublicKeyTo is its inverse; PublicKeyTo of the point at infinity gives bytes NewPublicKey refuses, and of a point off the curve panics.", "quantifier": "every byte string, every key and random source", "why_tests_cant": "acceptance is about all byte strings", "anchors": ["gm/sm2/sm2.go:NewPrivateKey", "gm/sm2/sm2.go:PrivateKeyTo", "gm/sm2/sm2.go:GenerateKey", "gm/sm2/sm2.go:NewPublicKey", "gm/sm2/sm2.go:PublicKeyTo", "gm/sm2/sm2curve/sm2curve.go:Unmarshal", "gm/sm2/sm2curve/marshal.go:Marshal"]}
{"id": "C96", "title": "FF1 permutes the numeral strings of each length", "statement": "For every radix from 2 to 62, key, tweak within the configured maximum and numeral string of admissible length, FF1 Encrypt gives the string SP 800-38G defines (with the byte length b exact), of the same length and radix; Decrypt inverts Encrypt and Encrypt inverts Decrypt as soon as b is large enough for half the string. No string or tweak makes either panic. Strings that are too short, tweaks that are too long, characters that are no digits and signs after the first place are refused. A leading '+' is accepted and encrypted as the numeral 0, and up to radix 36 capital letters are accepted, so these strings do not come back.", "quantifier": "every block cipher with 16-byte blocks, every radix, key, tweak and string", "why_tests_cant": "the permutation property is about all strings of all lengths under all keys; known answers only fix a few", "anchors": ["cipher/fpe/ff1/ff1.go:NewCipher", "cipher/fpe/ff1/ff1.go:EncryptWithTweak", "cipher/fpe/ff1/ff1.go:DecryptWithTweak", "cipher/fpe/ff1/ff1.go:ciph", "cipher/fpe/ff1/ff1.go:prf"]}
{"id": "C97", "title": "FF3 permutes the numeral strings of each length; its constructor reverses the caller's key", "statement": "For every radix from 2 to 62, key, 8-byte tweak and numeral string of length from minLen up to but excluding maxLen, FF3 Encrypt gives the string SP 800-38G defines, and Decrypt and Encrypt invert each other. Other lengths, maxLen included although the standard allows it, other tweak lengths and strings with any character that is no digit are refused. Capital letters up to radix 36 come back as small ones. NewCipher leaves the caller's key slice reversed: a second cipher made from the same slice uses the other byte order and does not decrypt what the first encrypted.", "quantifier": "every block cipher with 16-byte blocks, every radix, key, tweak and string", "why_tests_cant": "the permutation property is about all strings of all lengths; the key reversal shows only when a slice is used twice", "anchors": ["cipher/fpe/ff3/ff3.go:NewCipher", "cipher/fpe/ff3/ff3.go:EncryptWithTweak", "cipher/fpe/ff3/ff3.go:DecryptWithTweak", "cipher/fpe/ff3/ff3.go:rev", "cipher/fpe/ff3/ff3.go:revB"]}
{"id": "C98", "title": "The gcd helpers end and give Bezout cofactors without overflow", "statement": "gcd Recursive and Iterative end for all int64 arguments and give the greatest common divisor up to sign, the divisor itself for arguments that are not negative. Extended, ExtendedRecursive and ExtendedIterative give, for all arguments from 0 to 2^63-1, the divisor and cofactors x, y with a*x+b*y equal to it exactly, no int64 operation having wrapped. For negative arguments ExtendedRecursive and ExtendedIterative return one argument unchanged, which need not divide the other. Lcm is the least common multiple for positive arguments of product at most 2^53.", "quantifier": "all int64 pairs (and for Lcm those of product at most 2^53)", "why_tests_cant": "overflow and termination concern all pairs of 64-bit numbers", "anchors": ["tool/math/gcd/gcd.go:Recursive", "tool/math/gcd/gcditerative.go:Iterative", "tool/math/gcd/extended.go:Extended", "tool/math/gcd/extendedgcd.go:ExtendedRecursive", "tool/math/gcd/extendedgcditerative.go:ExtendedIterative", "tool/math/lcm/lcm.go:Lcm"]}
{"id": "C99", "title": "The rational and big-integer helpers", "statement": "Floor and Ceil are the floor and the ceiling. Round is the nearest integer with ties away from zero below zero; from zero on it is right on ties only and one too large for every other number, integers included. Odd gives the least odd number not below its argument. RotateLeft and RotateRight with Mask(s) permute the low s bits cyclically. Sqrt is never below the square root and a further step never increases it.", "quantifier": "all rationals, all integers, all rotation counts up to the width", "why_tests_cant": "the claims are about all numbers; the defect of Round is missed by tests on ties", "anchors": ["tool/math/math.go:Floor", "tool/math/math.go:Ceil", "tool/math/math.go:Round", "tool/math/math.go:Odd", "tool/math/math.go:Mask", "tool/math/math.go:RotateLeft", "tool/math/math.go:RotateRight", "tool/math/math.go:Sqrt"]}
{"id": "C100", "title": "A cascade of two block ciphers is a block cipher", "statement": "For any two block ciphers cascade.NewCipher succeeds and gives a block cipher whose block size is the least common multiple of theirs: Decrypt undoes Encrypt and the reverse, exactly one block of dst is written, only one block of src is read, shorter slices panic. Encryption is the first cipher on every one of its blocks, then the second on every one of its.", "quantifier": "all pairs of block ciphers of any block sizes with product at most 2^53, all blocks", "why_tests_cant": "combines arbitrary ciphers of arbitrary block sizes", "anchors": ["cipher/cascade/cascade.go:NewCipher", "cipher/cascade/cascade.go:Encrypt", "cipher/cascade/cascade.go:Decrypt"]}
{"id": "C101", "title": "Lion is inverted by its decryption when source and destination have the same length", "statement": "For every hash and stream cipher, key and block size, Lion NewCipher succeeds (too small a block size is raised to 2*hash+1, key bytes beyond the hash size in either half are ignored), and on slices of one common length not below the block size Decrypt and Encrypt undo each other; the whole slice is treated as one block by the three rounds of Lion. A source longer than the destination panics although both hold a block; with a destination longer than the source the hash covers the old bytes of the destination and the block does not come back.", "quantifier": "every hash, stream cipher, key, block size, all slices", "why_tests_cant": "generic in hash and stream cipher; the defects need slices of different lengths", "anchors": ["cipher/lion/lion.go:NewCipher", "cipher/lion/lion.go:Encrypt", "cipher/lion/lion.go:Decrypt", "cipher/lion/lion.go:expandKey"]}
{"id": "C102", "title": "BIP-340 signing and verification agree with the scheme", "statement": "VerifyWithRS accepts (r, s) exactly when 0 < r, 0 < s < N and the pair is one of the signing equation for the key and message, r being the x of the nonce point. SignUsingKToRS derives the nonce from the auxiliary number, the key and the message as BIP-340 does, and SignToRS returns pairs that verify unless r or s is 0, which is not checked. The byte forms round-trip and never panic; VerifyWithRS, and so the ASN.1 form, panics exactly on an r that does not fit the width of P with s in range. BatchVerify accepts exactly when every signature is accepted, and panics when given messages but no keys.", "quantifier": "every lawful curve with negation, digest, key, message, random source, every r and s", "why_tests_cant": "acceptance is an equivalence over all pairs; the panic needs an oversized r", "anchors": ["pubkey/bip0340/bip0340.go:SignToRS", "pubkey/bip0340/bip0340.go:SignUsingKToRS", "pubkey/bip0340/bip0340.go:VerifyWithRS", "pubkey/bip0340/bip0340.go:SignBytes", "pubkey/bip0340/bip0340.go:VerifyBytes", "pubkey/bip0340/batch.go:BatchVerify", "pubkey/bip0340/utils.go:bip0340SetScalar"]}
{"id": "C103", "title": "BIGN signing and verification agree with the scheme", "statement": "VerifyWithRS accepts (r, s) exactly when the absolute value of r and s are the two halves of a signature of the scheme with s not 0; so (-r, s) is accepted with (r, s), and numbers beyond their widths panic. Signing with nonce k gives the pair of k, accepted unless its second half is 0, also in byte form. A random nonce may be 0, and then the signature gives the private key by one linear equation. The deterministic nonce is the first number in range of the standard's generator after two rounds over the digest. GetOidFromAdata and GetTFromAdata invert MakeAdata below 65532 bytes; at 65532 bytes of OID GetOidFromAdata panics.", "quantifier": "every lawful curve, hash, block cipher, key, message, nonce, reader, every r and s", "why_tests_cant": "equivalence over all pairs; nonce search of unbounded length; rare zero nonce", "anchors": ["pubkey/bign/bign.go:SignToRS", "pubkey/bign/bign.go:VerifyWithRS", "pubkey/bign/bign.go:SignBytes", "pubkey/bign/bign.go:VerifyBytes", "pubkey/bign/utils.go:GetOidFromAdata", "pubkey/bign/utils.go:GetTFromAdata", "pubkey/bign/utils.go:MakeAdata", "pubkey/bign/utils.go:determiniticNonce"]}
{"id": "C104", "title": "Deterministic ECDSA gives valid signatures but not always the nonce of RFC 6979", "statement": "DSign with a reader never panics and what it returns is a valid ECDSA signature for the leftmost bits of the hash; DSignBytes carries it in two fields of the curve width. With a nil reader the nonce is the first candidate of RFC 6979 reduced modulo N, which is the nonce of the RFC when the candidate is in 1..N-1. A candidate outside is reduced instead of redrawn, and when nonce, r or s is 0 the same nonce is tried for ever: there is a curve, hash and key for which RFC 6979 has a nonce and DSign never returns.", "quantifier": "every lawful curve, hash function, key, digest, reader, any number of loop passes", "why_tests_cant": "the candidates out of range are too rare to be hit by tests on large curves", "anchors": ["pubkey/ecdsa/decdsa.go:DSign", "pubkey/ecdsa/decdsa.go:DSignBytes", "pubkey/ecdsa/decdsa.go:hashToInt", "pubkey/ecdsa/decdsa.go:rfc6979Nonce"]}
{"id": "C105", "title": "Schnorr signatures over a DSA group are accepted exactly when they satisfy the signing equation", "statement": "Verify accepts (r, s) exactly when 0 < r, 0 < s < Q and for some k, r is the digest of g^k followed by the message and s = k + r x modulo Q. It panics exactly on an r longer than the digest. GenerateKey gives a proper key. Sign never panics and SignUsingK returns a pair that is accepted if the first attempt succeeds; later attempts reuse the nonce and a hash that was not reset, so the pair of attempt j+1 is accepted only if the digests of one and of j+1 copies of g^k and the message collide, and there are cases where the returned signature is rejected. The byte forms carry the pair and never panic.", "quantifier": "every digest, key, message, nonce, random source, every r and s", "why_tests_cant": "acceptance is an equivalence over all pairs; the retry happens with negligible probability", "anchors": ["pubkey/sdsa/sdsa.go:GenerateKey", "pubkey/sdsa/sdsa.go:Sign", "pubkey/sdsa/sdsa.go:SignUsingK", "pubkey/sdsa/sdsa.go:Verify", "pubkey/sdsa/sdsa.go:SignBytes", "pubkey/sdsa/sdsa.go:VerifyBytes"]}
{"id": "C106", "title": "Rabin decryption finds the plaintext among the four roots", "statement": "For two different primes that are 3 modulo 4 and a plaintext which as a number is from 1 to N-1, Decrypt of Encrypt returns the plaintext or a SHA-256 collision with it of the same length and square. Decrypt never panics and what it returns has the length and hash stated in the ciphertext. A plaintext that is 0 or a multiple of N, the empty one included, is encrypted but cannot be decrypted; one above N never comes back; with N = 0 Encrypt panics.", "quantifier": "all keys, all plaintexts shorter than 2^32 bytes, all ciphertexts", "why_tests_cant": "ranges over all primes and plaintexts; needs number theory", "anchors": ["pubkey/rabin/rabin.go:Encrypt", "pubkey/rabin/rabin.go:Decrypt", "pubkey/rabin/utils.go:squareAndMultiple", "pubkey/rabin/utils.go:extendedEuclideanAlgorithm", "pubkey/rabin/utils.go:getSquareRoot", "pubkey/rabin/utils.go:decrypt", "pubkey/rabin/utils.go:hashEqual"]}
{"id": "C107", "title": "Rabin key generation accepts all primes that are 3 modulo 4 but also composites", "statement": "On numbers that are 3 modulo 4 the primality test is the Euler test to the single base 10^12+1: all primes pass, and so do the composites 175, 775 and 4375. The test ends for all numbers above 1 and never ends for 1. Generated numbers are 3 modulo 4 and pass the test, but may be composite or equal, and then some plaintexts do not decrypt. When the random source fails, generation never returns.", "quantifier": "all numbers, all random sources, any number of draws", "why_tests_cant": "which numbers pass is a statement about all of them; non-termination cannot be tested", "anchors": ["pubkey/rabin/rabin.go:GenerateKeyWithBitLength", "pubkey/rabin/utils.go:generateRabinPrimeNumber", "pubkey/rabin/utils.go:getprimeNumber", "pubkey/rabin/utils.go:generateNumber", "pubkey/rabin/utils.go:isaPrimeNumber", "pubkey/rabin/utils.go:squareAndMultiplyWithoutMod", "pubkey/rabin/utils.go:millerRabinPrimalityTest"]}
{"id": "C108", "title": "GOST curve arithmetic computes the multiples of the base point", "statement": "On a curve that obeys the chord-and-tangent law, ScalarMult and ScalarBaseMult return the k-fold point for every scalar that is not a multiple of q and panic for every multiple of q; Add and Double return the sum of two points that are not opposite. Points off the curve make all of them panic. NewCurve accepts parameters exactly when the base point satisfies the equation. Adding the point at infinity, which the code lets through, or two opposite points gives a wrong point that is not even on the curve.", "quantifier": "every such curve, all points of the base point's subgroup, all scalars as byte strings", "why_tests_cant": "ranges over all scalars and points; the exceptional cases have negligible probability on real curves", "anchors": ["pubkey/gost/curve.go:add", "pubkey/gost/curve.go:Add", "pubkey/gost/curve.go:Double", "pubkey/gost/curve.go:Exp", "pubkey/gost/curve.go:ScalarMult", "pubkey/gost/curve.go:ScalarBaseMult", "pubkey/gost/curve.go:NewCurve", "pubkey/gost/curve.go:IsOnCurve", "pubkey/gost/curve.go:panicIfNotOnCurve"]}
{"id": "C109", "title": "GOST R 34.10 signatures are accepted exactly when they satisfy the equation of the standard, but for one line", "statement": "SignToRS returns 0 < r, s < q with r = x(kG) mod q and s = r d + k e mod q for a nonce k; it never panics. VerifyWithRS never fails or panics, rejects all pairs out of range and, unless s = r d or s = -r d modulo q, accepts exactly the pairs with such a nonce. On these two lines it compares r with -2 x(s/e G) instead, so a signature with s = -r d that Sign made is rejected, and there is such a case. The byte form is s then r at PointSize bytes each; other lengths are an error; a signature by Sign with s different from -r d is accepted by Verify.", "quantifier": "every curve obeying the group law, every key, digest, random source, and every r and s", "why_tests_cant": "acceptance is an equivalence over all pairs; the rejected genuine signatures have negligible probability on real curves", "anchors": ["pubkey/gost/gost.go:SignToRS", "pubkey/gost/gost.go:VerifyWithRS", "pubkey/gost/gost.go:Sign", "pubkey/gost/gost.go:Verify"]}
{"id": "C110", "title": "GOST keys and points round-trip and VKO agrees on both sides", "statement": "NewPrivateKey reads a little-endian scalar d: zero is an error, any other multiple of q panics, and otherwise the public point is dG; PrivateKeyTo gives back the PointSize bytes read. GenerateKey takes PointSize random bytes unreduced and panics when they are a non-zero multiple of q. Marshal writes x then y little-endian, NewPublicKey reads it back, and whatever NewPublicKey accepts is on the curve, in range and re-encoded to the same bytes. KEK of (a, bG) equals KEK of (b, aG), being the encoding of (a b ukm cofactor) G; it panics when ukm times the cofactor is a multiple of q. The hashed forms agree as well, and KEK2001 refuses curves above 256 bits. Curve.Equal decides equality, but panics when only one of the curves has an Edwards form.", "quantifier": "all curves obeying the group law, all keys, user keying material and byte strings", "why_tests_cant": "ranges over all keys and strings", "anchors": ["pubkey/gost/gost.go:newPrivateKey", "pubkey/gost/gost.go:GenerateKey", "pubkey/gost/gost.go:NewPrivateKey", "pubkey/gost/gost.go:PrivateKeyTo", "pubkey/gost/gost.go:NewPublicKey", "pubkey/gost/gost.go:PublicKeyTo", "pubkey/gost/marshal.go:Marshal", "pubkey/gost/marshal.go:Unmarshal", "pubkey/gost/vko.go:NewUKM", "pubkey/gost/vko.go:KEK", "pubkey/gost/vko.go:KEK2001", "pubkey/gost/vko.go:KEK2012256", "pubkey/gost/vko.go:KEK2012512", "pubkey/gost/curve.go:Equal", "pubkey/gost/curve.go:PointSize", "pubkey/gost/utils.go:Reverse"]}
{"id": "C111", "title": "GOST Edwards coordinates and Weierstrass coordinates are inverse to each other", "statement": "When the Weierstrass parameters belong to the Edwards curve e u^2 + v^2 = 1 + d u^2 v^2, XY2UV maps every curve point with y, x - t and x - t + s not zero to a point of the Edwards curve and UV2XY maps it back; UV2XY maps every Edwards point with u not 0 and v not 1 to a point of the curve and XY2UV maps it back. Both panic on a curve without Edwards form.", "quantifier": "all primes above 3, all parameters and points", "why_tests_cant": "ranges over all points; an algebraic identity over every field", "anchors": ["pubkey/gost/edwards.go:XY2UV", "pubkey/gost/edwards.go:UV2XY", "pubkey/gost/edwards.go:EdwardsST", "pubkey/gost/edwards.go:IsEdwards"]}
{"id": "C112", "title": "KCDSA signatures are accepted exactly when they satisfy the signing equation", "statement": "For a key with y = g^(1/x), Verify never fails and accepts (r, s) exactly when 0 < r, 0 < s < q and there is a nonce k with r the low bits of the digest of g^k and s = x(k - e), e being r xor the low bits of the digest of the key block and the data. GenerateKey returns such a key, whatever the random source, when q is prime. Every signature Sign returns is accepted by Verify, provided P is at least as long as the digest's block; Sign refuses every q whose bit length is not a multiple of 8.", "quantifier": "all domain parameters with prime q and g of order q, all keys, digests, data, random sources, all integers r and s", "why_tests_cant": "acceptance is an equivalence over all pairs and signing ranges over all random sources", "anchors": ["pubkey/kcdsa/kcdsa.go:GenerateKey", "pubkey/kcdsa/kcdsa.go:Sign", "pubkey/kcdsa/kcdsa.go:Verify", "pubkey/kcdsa/kcdsa.go:sign", "pubkey/kcdsa/kcdsa.go:verify", "pubkey/kcdsa/utils.go:GenerateY", "pubkey/kcdsa/utils.go:FermatInverse", "pubkey/kcdsa/utils.go:RightMost", "pubkey/kcdsa/utils.go:ReadBits"]}
{"id": "C113", "title": "KCDSA byte signatures have a fixed length and verify, but Sign crashes when P is shorter than the digest's block", "statement": "SignBytes returns min(digest size, q length) + q length bytes, which VerifyBytes accepts; VerifyBytes accepts exactly the strings of that length whose two parts satisfy the signing equation. When P takes fewer bytes than the block size of the digest, Sign never returns a signature and panics on the first usable nonce (its scratch buffer has the length of P), whereas Verify works.", "quantifier": "all keys, digests, data, random sources and byte strings", "why_tests_cant": "ranges over all keys, hash shapes and byte strings", "anchors": ["pubkey/kcdsa/kcdsa.go:SignBytes", "pubkey/kcdsa/kcdsa.go:VerifyBytes", "pubkey/kcdsa/kcdsa.go:Sign", "pubkey/kcdsa/kcdsa.go:sign"]}
{"id": "C114", "title": "KCDSA fast parameters form a subgroup of order q, and a whole run from parameters to verification succeeds", "statement": "The parameters GenerateParameters returns have P and Q that passed the primality test, Q of exactly B bits dividing P - 1, P of exactly A bits, and 1 < G < P; if P is prime then G^Q = 1. A key generated from them signs data that Verify accepts.", "quantifier": "all sizes, random sources and primality tests", "why_tests_cant": "ranges over all random sources; the boundary candidate P = 2^A cannot be met by testing", "anchors": ["pubkey/kcdsa/utils.go:GenerateParametersFast", "pubkey/kcdsa/kcdsa.go:GenerateParameters", "pubkey/kcdsa/kcdsa.go:GenerateKey"]}
{"id": "C115", "title": "KCDSA seeded generation is the function of the standard and can be repeated from its certificate", "statement": "PPGF returns the low bits of the concatenated digests of src||n, n counted from the end, whatever the buffer given. GenerateX is PPGF((xkey + PPGF(upri)) mod 2^B) mod Q. TTAK parameters satisfy P = 2JQ + 1, bit length of Q equal to B and of P at most A, G different from 1, and G^Q = 1 when P is prime and G is not 0. RegenerateParameters from (J, Seed, Count) returns the same P and Q for every random source, and the same G for some. The base of the generator is drawn below P and then 2 is added, so that G = 0 can be returned: for every certificate there is a random source doing so.", "quantifier": "all digests, seeds, sizes, random sources and primality tests", "why_tests_cant": "ranges over all seeds and random sources; G = 0 has negligible probability in a test", "anchors": ["pubkey/kcdsa/ppgf.go:ppgf", "pubkey/kcdsa/ppgf.go:Generate", "pubkey/kcdsa/utils.go:GenerateX", "pubkey/kcdsa/utils.go:generateParametersTTAK", "pubkey/kcdsa/utils.go:GenerateJ", "pubkey/kcdsa/utils.go:GeneratePQ", "pubkey/kcdsa/utils.go:RegeneratePQ", "pubkey/kcdsa/utils.go:GenerateHG", "pubkey/kcdsa/utils.go:GenerateG", "pubkey/kcdsa/utils.go:ReadBigInt", "pubkey/kcdsa/kcdsa.go:RegenerateParameters", "pubkey/kcdsa/kcdsa.go:GenerateParametersTTAK"]}
{"id": "C116", "title": "Diffie-Hellman over a prime field: both sides derive the same secret, generated keys are in range, and no peer value is refused", "statement": "GenerateKeyWithGroup returns an exponent X with bitlen(P) < X < P and the public value g^X mod P, which Check accepts and GeneratePublicKey recomputes; the exponent always lies below the length of P less one byte, so a P of one byte never yields a key and P = 0 panics. For any two private keys of one group, ComputeSecret with the other side's public key returns on both sides the same bytes, the shortest form of g^(ab) mod P. Check accepts exactly 0 <= Y < P, and ComputeSecret checks nothing: the peer values 0, 1 and P - 1 give secrets everyone knows.", "quantifier": "all moduli, generators, random sources, private keys and peer values", "why_tests_cant": "agreement is an identity over all exponents; key ranges hold for every random source", "anchors": ["pubkey/dh/dh/dh.go:GenerateKeyWithGroup", "pubkey/dh/dh/dh.go:GenerateKey", "pubkey/dh/dh/dh.go:GeneratePublicKey", "pubkey/dh/dh/dh.go:ComputeSecret", "pubkey/dh/dh/dh.go:Check"]}
{"id": "C117", "title": "The Diffie-Hellman groups are the standard ones, except the 8192-bit group whose modulus is composite", "statement": "GetMODGroup returns for the identifiers of 768 to 6144 bits the primes 2^n - 2^(n-64) - 1 + 2^64 (floor(2^(n-130) pi) + k) of RFC 2409 and RFC 3526 with generator 2, and refuses other identifiers. For 8192 bits the constant lacks the last hexadecimal digit of the standard's prime: it has 8188 bits and is divisible by 697127.", "quantifier": "all group identifiers", "why_tests_cant": "compares 8 constants of up to 8192 bits with their definition from the expansion of pi; a round trip works with a wrong modulus too", "anchors": ["pubkey/dh/dh/group.go:GetMODGroup"]}
{"id": "C118", "title": "ECIES: Encrypt produces the standard's text from a fresh point and Decrypt gives the message back", "statement": "For a parameter set whose digest yields enough key bytes and a curve whose coordinates hold two keys, a text Encrypt returns for a non-empty message is the point e*G of some 0 < e < N, the initial vector, the message in counter mode under the first half of the derived key, and the HMAC under the digest of the second half over vector, text and s2; Decrypt with the private key, s1 and s2 returns the message. Each e and each vector occurs for some random bytes. For the empty message Encrypt returns an empty text and no error, which Decrypt refuses.", "quantifier": "all curves with a lawful group, parameter sets, keys, messages, s1, s2 and random sources", "why_tests_cant": "ranges over all random sources and messages", "anchors": ["pubkey/ecies/ecies.go:Encrypt", "pubkey/ecies/ecies.go:Decrypt", "pubkey/ecies/ecies.go:GenerateShared", "pubkey/ecies/ecies.go:concatKDF", "pubkey/ecies/ecies.go:messageTag", "pubkey/ecies/ecies.go:symEncrypt", "pubkey/ecies/ecies.go:symDecrypt"]}
{"id": "C119", "title": "ECIES: Decrypt accepts exactly the texts that carry a message from a point on the curve, but text and s2 are not separated", "statement": "Decrypt returns m if and only if the text is a point of the curve with coordinates below P, followed by vector, counter-mode text and a correct HMAC under the keys of the shared point; everything else is an error or a panic. The HMAC covers text || s2 without lengths: cutting the last bytes t off the encrypted text and giving t || s2 as s2 makes Decrypt return the shortened message.", "quantifier": "all curves, parameter sets, private keys, byte strings, s1 and s2", "why_tests_cant": "an equivalence over all byte strings", "anchors": ["pubkey/ecies/ecies.go:Decrypt", "pubkey/ecies/ecies.go:messageTag", "pubkey/ecies/ecies.go:symDecrypt"]}
{"id": "C120", "title": "ECIES: the inputs on which Decrypt and Encrypt crash", "statement": "Decrypt panics exactly on texts with a correct HMAC over 1 to BlockSize - 1 bytes, and anyone who has the public key can make such a text. concatKDF counts rounds by the digest's block size instead of its output size: the sets AES128-SHA256, AES192-SHA384, AES256-SHA256 and AES256-SHA512 derive enough bytes, while ECIES_AES256_SHA384 never encrypts or decrypts anything on any curve and panics on curves with coordinates of 64 bytes or more. Encrypt panics for random bytes that give the ephemeral key 0.", "quantifier": "all curves, parameter sets, keys, byte strings, s1, s2 and random sources", "why_tests_cant": "the crashing texts need a correct HMAC and the ephemeral key 0 needs one random value in N", "anchors": ["pubkey/ecies/ecies.go:Decrypt", "pubkey/ecies/ecies.go:symDecrypt", "pubkey/ecies/ecies.go:concatKDF", "pubkey/ecies/ecies.go:Encrypt"]}
{"id": "C121", "title": "The chained API: Decrypt undoes Encrypt for every mode and padding it should, and the combinations for which it cannot", "statement": "For the modes ECB, CBC, PCBC, BC, CFB, CFB1, CFB8, CFB128, OFB, OFB8 and CTR and all ten paddings, Encrypt succeeds exactly when the iv has the block length (ECB takes any) and the text fits: without padding the block modes need whole blocks, and PKCS5 pads to multiples of 8 whatever the block size, so it fits only when that is a whole number of blocks. Any object with the same settings then decrypts the result to the text (zero padding loses trailing zeros). GCM and CCM do so without padding or when the tag is a whole number of blocks; a padded text with another tag size is encrypted without an error and can never be decrypted. The same holds for OCFB with any padding; without padding OCFB decrypts once, overwriting the start of the caller's data, and a second Decrypt fails. HCTR undoes what it encrypts. Unknown ciphers, modes and paddings are errors in both directions.", "quantifier": "all block ciphers, keys, ivs, texts, modes, paddings, random padding bytes and histories of objects", "why_tests_cant": "a product of 15 modes, 10 paddings and all lengths; the failing combinations succeed in one direction", "anchors": ["cryptobin/crypto/encrypt.go:Encrypt", "cryptobin/crypto/encrypt.go:Decrypt", "cryptobin/crypto/encrypt_multiple.go:BlockEncrypt", "cryptobin/crypto/encrypt_multiple.go:BlockDecrypt", "cryptobin/crypto/encrypt_mode.go:ModeOCFB", "cryptobin/crypto/encrypt_mode.go:ModeCCM", "cryptobin/crypto/encrypt_mode.go:ModeGCM", "cryptobin/crypto/encrypt_padding.go:UsePadding"]}
{"id": "C122", "title": "The chained API: Encrypt and Decrypt never panic, report exactly one error on failure, and keep the previous result", "statement": "While no registered handler panics, Encrypt and Decrypt return for every cipher, setting and text. On success the result is stored and no error is added; on failure, an error or a panic inside, one error is added and the result of an earlier success stays readable. Every handler is called with all errors so far, after a success too. A handler that panics makes the call panic.", "quantifier": "all ciphers including ones that panic, settings, texts, handler lists and histories of objects", "why_tests_cant": "ranges over all ciphers and settings; the panic paths depend on them", "anchors": ["cryptobin/crypto/encrypt.go:Encrypt", "cryptobin/crypto/encrypt.go:Decrypt", "cryptobin/crypto/on.go:OnError", "cryptobin/crypto/error.go:AppendError", "tool/recover/recover.go:Recover", "tool/error_event/error_event.go:Trigger"]}
{"id": "C123", "title": "The chained API: an earlier error does not stop the chain", "statement": "What Encrypt and Decrypt store depends on the settings and the data only, not on errors reported before. In particular, after a FromBase64String or FromHexString that could not decode its argument, Encrypt succeeds on the data the object held before.", "quantifier": "all objects of all histories", "why_tests_cant": "relates two arbitrary histories", "anchors": ["cryptobin/crypto/encrypt.go:Encrypt", "cryptobin/crypto/from.go:FromBase64String", "cryptobin/crypto/from.go:FromHexString", "cryptobin/crypto/error.go:AppendError"]}
{"id": "C124", "title": "The chained API: options are shared by all objects that descend from one New, and all chains of the package functions", "statement": "An option stored through an object (additional data, tag and nonce size, tweak, ...) changes for exactly the objects that descend from the same New, including those made before, and for no other, whatever else the program does. The package functions FromString and the like all descend from one default object, so additional data set by one chain is used by the next chain, which never set it.", "quantifier": "all programs that create objects from one another and store options", "why_tests_cant": "ranges over all histories and interleavings of chains", "anchors": ["cryptobin/crypto/cryptobin.go:New", "cryptobin/crypto/from.go:FromString", "cryptobin/crypto/with.go:PutConfig", "cryptobin/crypto/use.go:CCM", "tool/config/config.go:Set"]}
{"id": "C125", "title": "The chained API: the errors an object shows stay, unless a chain is forked", "statement": "The errors of an object are the same for ever if no error is added, in its descent, through an object with fewer errors; objects of different descent never affect each other's errors or handlers. If two chains are continued from one object with three errors, the error of the second replaces that of the first in the first chain's list.", "quantifier": "all programs that create objects from one another", "why_tests_cant": "depends on the growth of the slice's capacity and the order of calls", "anchors": ["cryptobin/crypto/error.go:AppendError", "cryptobin/crypto/on.go:OnError", "tool/error_event/error_event.go:On"]}
{"id": "C126", "title": "NewNISTHash is Hash_DRBG of SP 800-90A over every history of calls", "statement": "NewNISTHash succeeds exactly for entropy of 1 to 2^27-1 bytes, a nonce of 1 to 2^26-1 bytes and a personalization of less than 2^27 bytes. Every later sequence of Reseed and Generate, with arbitrary lengths, gives exactly the outputs of Hash_DRBG with V and C as numbers modulo 2^seedlen, refused calls change nothing, and every accepted Generate fills the whole buffer.", "quantifier": "all hash functions with digests of 1 to 111 bytes, all seeds and all sequences of calls", "why_tests_cant": "the state is a 440 or 888 bit number that carries over between calls", "anchors": ["rand/drbg/hash.go:NewNISTHash", "rand/drbg/hash.go:Reseed", "rand/drbg/hash.go:Generate", "rand/drbg/hash.go:hashgen", "rand/drbg/utils.go:hashDF", "rand/drbg/utils.go:drbg_add", "rand/drbg/utils.go:drbg_add1"]}
{"id": "C127", "title": "NewGMHash: the GM variant over every history, and what it leaves in the buffer", "statement": "The GM variant puts the entropy before V when reseeding and outputs one digest of V per Generate. It does not refuse longer requests: in every history, whatever the caller's buffer held beyond the first digest is still there after a Generate that reports success.", "quantifier": "all hash functions, seeds and sequences of calls", "why_tests_cant": "ranges over all histories and buffer contents", "anchors": ["rand/drbg/hash.go:NewGMHash", "rand/drbg/hash.go:Reseed", "rand/drbg/hash.go:hashgen"]}
{"id": "C128", "title": "NewHMAC is HMAC_DRBG of SP 800-90A over every history of calls", "statement": "NewHMAC accepts the same seeds. Every later sequence of Reseed and Generate gives exactly the outputs of HMAC_DRBG, refused calls change nothing, and every accepted Generate fills the whole buffer.", "quantifier": "all MAC functions of a fixed output length, all seeds and all sequences of calls", "why_tests_cant": "the state carries over between calls", "anchors": ["rand/drbg/hmac.go:NewHMAC", "rand/drbg/hmac.go:Reseed", "rand/drbg/hmac.go:Generate", "rand/drbg/hmac.go:update"]}
{"id": "C129", "title": "NewCTR over every history: CTR_DRBG of SP 800-90A except when an input fills the last block of the derivation function", "statement": "Every sequence of Reseed and Generate gives exactly the outputs of CTR_DRBG with a derivation function that adds a whole block of zeros when its string is already a whole number of blocks. If no seed material and no additional input has a length that is -9 modulo the block length, this is CTR_DRBG of SP 800-90A; with such an input the outputs differ from the standard's. Nothing panics and every accepted Generate fills the buffer.", "quantifier": "all block ciphers with blocks of at least 4 bytes and keys of at most 256 bytes, all seeds and all sequences of calls", "why_tests_cant": "the test vectors only use some input lengths; the state carries over between calls", "anchors": ["rand/drbg/ctr.go:NewCTR", "rand/drbg/ctr.go:Reseed", "rand/drbg/ctr.go:Generate", "rand/drbg/ctr.go:update", "rand/drbg/ctr.go:bcc", "rand/drbg/ctr.go:blockCipherDF"]}
{"id": "C130", "title": "The reseed interval of the generators, and the small generators prng and keygen", "statement": "In every history of the four generators a Generate is refused exactly when at least 2^48 calls of Generate were made since the last accepted Reseed. prng.Read returns the front of the double hash of the seed, the same on every call, and an error beyond one digest. keygen returns what one Read of the reader gave, filled up with zeros: a reader that returns fewer bytes than asked, as io.Reader allows, gives a key of mostly zeros without an error.", "quantifier": "all histories; all seeds, buffers, readers and key lengths", "why_tests_cant": "2^48 calls cannot be run", "anchors": ["rand/drbg/hash.go:Generate", "rand/drbg/hmac.go:Generate", "rand/drbg/ctr.go:Generate", "rand/prng/prng.go:Read", "rand/keygen/keygen.go:GenerateKey"]}
{"id": "C131", "title": "Password protected PEM blocks decrypt to what was encrypted", "statement": "For each of the 28 registered algorithms, pkcs1.EncryptPEMBlock followed by pkcs1.DecryptPEMBlock with the same password returns the data; the block carries Proc-Type 4,ENCRYPTED and a DEK-Info header naming the algorithm and spelling the random IV in hexadecimal, IsEncryptedPEMBlock is true for it, and the ciphertext has the data's length, rounded up to whole blocks by padding for CBC. A random source with fewer bytes than an IV, and a nil cipher, are errors.", "quantifier": "all algorithms of the table, data, passwords, block types and random sources; every digest of 16 bytes and lawful block cipher in place of MD5, AES, DES, 3DES, SM4 and GRASSHOPPER", "why_tests_cant": "28 algorithms times all lengths around block boundaries times all IVs; the tests encrypt one key per algorithm", "anchors": ["pkcs1/pkcs1.go:EncryptPEMBlock", "pkcs1/pkcs1.go:DecryptPEMBlock", "pkcs1/cipher_cbc.go:CipherCBC"]}
{"id": "C132", "title": "Decryption of PEM blocks returns exactly the legacy format's plaintext, never panics, and does not detect wrong passwords", "statement": "pkcs1.DecryptPEMBlock returns m exactly when DEK-Info is NAME,HEX with a registered name and a hexadecimal IV of the algorithm's block size, and m is the decryption under the derived key (for CBC: whole blocks, at least one, padding removed when there is a valid one); otherwise an error, never a panic, whatever the headers and bytes. Because an invalid padding is returned as data instead of an error, a block which decrypts under one password decrypts without error under every password.", "quantifier": "all headers, ciphertexts and passwords", "why_tests_cant": "malformed headers, odd and mixed case hexadecimal, truncated data: infinitely many inputs; absence of panics is a universal claim", "anchors": ["pkcs1/pkcs1.go:DecryptPEMBlock", "pkcs1/pkcs1.go:IsEncryptedPEMBlock", "pkcs1/helper.go:pkcs7UnPadding"]}
{"id": "C133", "title": "The PEM password derivation is the iterated digest chain", "statement": "pkcs1.DeriveKey(hash, password, salt, n) returns exactly n bytes: the first n of D1 D2 D3..., D1 = H(password salt), D(i+1) = H(D(i) password salt), as EVP_BytesToKey with one iteration; keys of different sizes are prefixes of each other.", "quantifier": "all passwords, salts, sizes and digests", "why_tests_cant": "the number of blocks is unbounded; the tests reach two", "anchors": ["pkcs1/cipher.go:DeriveKey"]}
{"id": "C134", "title": "PBES1 round trips and decrypts exactly as the standards say", "statement": "For each of the 14 schemes of pkcs/pbes1, Decrypt with the returned parameters and the same password returns the data that was given to Encrypt; the parameters are the random salt and the count 2048, and the scheme is found again by its OID. Decrypt returns m exactly when m is the plaintext under the key and IV that RFC 7292 (identifiers 1 and 2) or PBKDF1 derive from password, salt and count; anything else is an error, never a panic. The iteration count of the parameters is not checked: zero and negative counts act as 1.", "quantifier": "all schemes, passwords, salts, counts, data and ciphertexts; every digest of the right size, lawful block cipher and RC4 key stream", "why_tests_cant": "parameters come from files: counts of any sign, salts of any length, ciphertexts which are not whole blocks", "anchors": ["pkcs/pbes1/cipher_blockcbc.go:Encrypt", "pkcs/pbes1/cipher_blockcbc.go:Decrypt", "pkcs/pbes1/cipher_rc4.go:Encrypt", "pkcs/pbes1/cipher_derived_key.go:DerivedKeyPkcs12", "pkcs/pbes1/cipher.go:GetCipher"]}
{"id": "C135", "title": "PBES2 encryption schemes round trip", "statement": "For every mode of pkcs/pbes2 (ECB, CBC, CFB, CFB1, CFB8, OFB, CTR, RC2, RC5, GOST CFB, GCM, CCM and their bare nonce variants), whose sizes fit the cipher, Decrypt with the parameters that Encrypt returned and the same key gives the data; the parameters hold the random IV or nonce; a short random source is an error. The GCM and CCM objects of the registry open whatever the bare nonce variants open. CCM encryption of 256^(15-n) bytes or more with an n byte nonce panics.", "quantifier": "all modes, sizes, keys, data and random sources; every lawful cipher, lawful AEAD for GCM and S-box table", "why_tests_cant": "modes times ciphers times data lengths; the tests have one message each", "anchors": ["pkcs/pbes2/cipher_cbc.go:Encrypt", "pkcs/pbes2/cipher_ccm.go:Encrypt", "pkcs/pbes2/cipher_gcm_iv.go:Decrypt", "pkcs/pbes2/cipher_rc5_cbc.go:Encrypt", "pkcs/pbes2/cipher_gost_cfb.go:Encrypt"]}
{"id": "C136", "title": "PBES2 decryption accepts exactly the plaintexts of its modes and never panics", "statement": "Decrypt of every PBES2 scheme returns m exactly when the parameters have the scheme's shape, the IV has the length of a block and m is the decryption (for CBC and ECB with a valid padding removed, for CCM only when the ciphertext is the RFC 3610 sealing of m with a 16 byte tag, nonce of 7 to 13 bytes); everything else is an error, never a panic. For RC5 and GOST the word size, rounds and S-box are those of the parameters. The version of RC2 parameters is checked to be in 1..1024 and otherwise ignored: all of them decrypt alike.", "quantifier": "all schemes, keys, parameters and ciphertexts", "why_tests_cant": "parameters come from files; absence of panics for every parameter value cannot be tested", "anchors": ["pkcs/pbes2/cipher_cbc.go:Decrypt", "pkcs/pbes2/cipher_rc2_cbc.go:Decrypt", "pkcs/pbes2/cipher_gcm.go:Decrypt", "pkcs/pbes2/cipher_ccm.go:Decrypt", "pkcs/pbes2/cipher_gost_cfb.go:Decrypt"]}
{"id": "C137", "title": "Ber2der turns every BER encoding into the one DER encoding of the same value", "statement": "For every tree of tags (of one or more identifier octets) and contents, and for each of its BER encodings with any mix of definite lengths in short or long form (up to four octets, less than 2^31) and of the indefinite form with at least one element, Ber2der of the encoding followed by any octets returns the DER encoding of the tree: definite lengths in the fewest octets. What Ber2der returns for any input at all is the DER encoding of some tree, normalising it again returns it unchanged, and two encodings have the same normal form exactly if they encode the same tree.", "quantifier": "all trees of any depth and size, all their BER encodings, all trailing octets; all inputs for the shape of the output", "why_tests_cant": "Trees, forms of length and nestings of indefinite values are unbounded; a test sees a few files.", "anchors": ["ber/ber.go:Ber2der", "ber/ber.go:readObject", "ber/ber.go:encodeLength"]}
{"id": "C138", "title": "Which inputs break Ber2der: cut tags panic, lengths that end inside a child are accepted, reading can be exponential", "statement": "Ber2der can only panic on an input that ends within, or right after, the octets of a tag with a number over 30, and it does panic on such inputs (1F 81, 1F 00). A SEQUENCE whose declared length ends anywhere inside its only child is accepted as if the length were right. Because the octets after such a declared end are read again, for every n there is an input of 6n+2 octets whose result has at least 2^n octets. An empty value in the indefinite form (tag 80 00 00), which is valid BER, is refused.", "quantifier": "all inputs for the panics; all children and declared lengths; all n", "why_tests_cant": "That nothing else panics is a claim about every input, and growth is a claim about all n.", "anchors": ["ber/ber.go:Ber2der", "ber/ber.go:readObject", "ber/ber.go:isIndefiniteTermination"]}
{"id": "C139", "title": "JKS key protection round trips, decrypts exactly its own ciphertexts, and panics on short ones", "statement": "The encoded private key of a JKS store holds a 20 byte seed, the key XORed with the chain of SHA-1 digests D(i+1) = SHA1(password16 D(i)) starting from the seed, and SHA1(password16 key), where password16 has a zero byte before each byte of the password. Decryption with the same password returns the key; it returns a key k exactly when the payload is such a protected form of k for some seed, an error otherwise; a payload of fewer than 40 bytes makes it panic.", "quantifier": "all keys, passwords, seeds and payloads; every hash with 20 byte digests", "why_tests_cant": "keys of any length, all tampered payloads; that no other payload is accepted or panics is a universal claim", "anchors": ["jceks/jks_encryptkey.go:jksEncryptKey", "jceks/jks_encryptkey.go:jksDecryptKey", "jceks/jks_utils.go:charsToBytes"]}
{"id": "C140", "title": "A JKS store keeps what was added, in order, and survives Marshal and Load", "statement": "After any sequence of AddPrivateKeyBytes, AddEncodedPrivateKeyBytes and AddTrustedCertBytes on a new store, the getters return for every alias the last accepted entry; an alias keeps its place, its first date and its kind (adding the other kind, or an empty certificate, is an error without effect). Marshal writes the JKS format, and loading that with the same password gives a store with the same aliases and entries, dates cut to milliseconds, provided that aliases have fewer than 65536 bytes, the others fewer than 2^31 and dates fit an int64 of nanoseconds; keys then decrypt under their own passwords. An alias of 65536 bytes is accepted but the marshalled store cannot be loaded. When the random source fails, AddPrivateKeyBytes returns an error and leaves an empty key in place of the one of the alias.", "quantifier": "all histories of calls, passwords, keys, certificates and dates; every hash with 20 byte digests", "why_tests_cant": "histories are unbounded and refused calls interact with accepted ones; the tests add one entry", "anchors": ["jceks/jks_encode.go:AddPrivateKeyBytes", "jceks/jks_encode.go:AddTrustedCertBytes", "jceks/jks_encode.go:Marshal", "jceks/jks_decode.go:Parse", "jceks/jks_decode.go:GetPrivateKeyBytes", "jceks/binary.go:writeUTF"]}
{"id": "C141", "title": "LoadJksFromBytes accepts exactly intact JKS files", "statement": "LoadJksFromBytes returns a store exactly when the data begin with a JKS file (magic FEEDFEED, version 2, a count of entries with tag 1 or 2 and X.509 certificates) directly followed by SHA1(password16 'Mighty Aphrodite' file); whatever comes after is ignored, negative counts are read as 0, and when an alias occurs several times the last entry of each kind counts. It can panic only when a length field after the header is negative as a 32 bit number, and does panic on such files, before the digest is checked.", "quantifier": "all byte strings and passwords; every hash with 20 byte digests", "why_tests_cant": "acceptance and absence of panics quantify over every file", "anchors": ["jceks/jks.go:LoadJksFromBytes", "jceks/jks_decode.go:Parse", "jceks/binary.go:readBytes", "jceks/jks_utils.go:getJksPreKeyedHash"]}
{"id": "C142", "title": "The RSA private operation is c^d mod N whatever the blinding and the precomputed values", "statement": "For every valid RSA key with two or more distinct primes, with or without precomputed CRT values, and for every number c up to N, the private operation behind PrivateKeyBytes returns c^d mod N, the same for every random reader, or the error of a reader that ran out; it never panics. The blinding succeeds as soon as one draw is prime to N. A number above N is an error. Public and private operation undo each other on every number below N.", "quantifier": "all valid keys with any number of primes, all numbers, all contents of the random reader", "why_tests_cant": "keys, numbers and blinding values are unbounded; a test sees one two-prime key", "anchors": ["pubkey/rsa/encryption.go:decrypt", "pubkey/rsa/encryption.go:modInverse", "pubkey/rsa/encryption.go:priKeyEncrypt"]}
{"id": "C143", "title": "RSA messages of one block come back under the matching key", "statement": "With a valid key of k bytes and a message of at most k - 11 bytes, PublicKeyBytes encrypts to k bytes holding b^e mod N for a PKCS#1 type 2 block b with nonzero padding, and PrivateKeyBytes decrypts it to the message; PrivateKeyBytes encrypts to the k bytes of b^d mod N for the type 1 block b, for every reader the same, and PublicKeyBytes recovers the message from it. The only other outcome is the error of an exhausted reader.", "quantifier": "all valid keys, messages of up to k - 11 bytes and random readers", "why_tests_cant": "the number of keys, messages and random strings is unbounded", "anchors": ["pubkey/rsa/encryption.go:PublicKeyBytes", "pubkey/rsa/encryption.go:PrivateKeyBytes", "pubkey/rsa/encryption.go:pubKeyDecrypt", "pubkey/rsa/encryption.go:priKeyEncrypt", "pubkey/rsa/encryption.go:leftPad", "pubkey/rsa/encryption.go:copyWithLeftPad", "pubkey/rsa/encryption.go:nonZeroRandomBytes"]}
{"id": "C144", "title": "RSA encryption of more than one block does not round trip", "statement": "For a message longer than k - 11 bytes both directions of encryption return k - 11 zero bytes followed by one correct k byte block for every k - 11 bytes of the message. Because of the zero bytes, what PrivateKeyBytes made of a long message is never decrypted by PublicKeyBytes (it fails for every such message and reader), and what PublicKeyBytes made of one is never decrypted to the message by PrivateKeyBytes unless the message begins with k zero bytes: any successful decryption of more than k bytes begins with k zero bytes. The plain concatenation of two or more blocks decrypts to k zero bytes followed by the message.", "quantifier": "all valid keys of at least 12 bytes, all longer messages, all random readers", "why_tests_cant": "failure for every message is universal; the tests only use short messages", "anchors": ["pubkey/rsa/encryption.go:PublicKeyBytes", "pubkey/rsa/encryption.go:PrivateKeyBytes", "pubkey/rsa/encryption.go:pubKeyIO", "pubkey/rsa/encryption.go:priKeyIO"]}
{"id": "C145", "title": "Decryption with an RSA public key accepts malformed blocks and can panic", "statement": "PublicKeyBytes with isEncrypt false recovers m from k bytes c exactly when c is at most N and c^e mod N is, in k bytes, 00, then 00 or 01, then any number (also none) of nonzero bytes, then 00, then m; the padding need be neither FF nor eight bytes. It panics exactly when the nonzero bytes reach the end of the block, and every valid key has such inputs. Anyone can make it recover the k - 3 byte form of x^e for every x with x^e below 256^(k-3), without the private key.", "quantifier": "all moduli and exponents, all inputs", "why_tests_cant": "which inputs are accepted or panic quantifies over all of them", "anchors": ["pubkey/rsa/encryption.go:pubKeyDecrypt", "pubkey/rsa/encryption.go:PublicKeyBytes"]}
{"id": "C146", "title": "The unpadded RSA functions return the message exactly when it is a reduced number without leading zeros", "statement": "LowerSafeDecrypt of LowerSafeEncrypt returns the shortest big-endian form of the message read as a number modulo N. It is the message exactly when the message is below N and does not begin with a zero byte; a message beginning with a zero byte never comes back.", "quantifier": "all valid keys and messages", "why_tests_cant": "all messages; the loss concerns values tests do not choose", "anchors": ["pubkey/rsa/lower_safe.go:LowerSafeEncrypt", "pubkey/rsa/lower_safe.go:LowerSafeDecrypt"]}
{"id": "C147", "title": "argon2fmt hashes verify with exactly the right key, but crafted or garbled strings panic", "statement": "GenerateSaltedHash gives $name$v=19$m=..,t=..,p=..$salt$key with RFC 4648 base64 and the salt from the reader, or an error for an empty password, a short reader or an unknown type. For every such hash CompareHashWithPassword accepts the password, accepts another password exactly when Argon2 gives the same key, and never panics. Whatever string is accepted, Argon2 of the password gives the non-empty stored key. For a string of this form with any numbers, the time and memory count modulo 2^32 and the threads modulo 256 (p=260 is p=4), and the call panics exactly when the time or the threads are then zero or the key is empty; a number that does not begin like one counts as zero, so it panics too.", "quantifier": "all passwords, salts, options and types; all numbers, salts and keys in a hash string; all strings for soundness", "why_tests_cant": "the tests compare a few generated hashes; acceptance, wrapping and panics concern every string", "anchors": ["passhash/argon2fmt/argon2fmt.go:GenerateSaltedHashWithTypeAndOpts", "passhash/argon2fmt/argon2fmt.go:CompareHashWithPassword", "kdf/argon2/argon2.go:deriveKey"]}
{"id": "C148", "title": "argon2 hashes verify with exactly the right key, also when the salt is missing", "statement": "The seven field hash name$19$memory$time$threads$salt$key verifies with the password, and with another password exactly when Argon2 gives the same key; \"argon2\" runs as argon2i. Whatever is accepted, Argon2 of the password gives the non-empty stored key. Numbers wrap as in argon2fmt and the same strings panic. A random reader that fails does not fail the call: the hash is then made with an empty salt, the same for every failing reader, and it verifies.", "quantifier": "all passwords, readers (also failing ones), options and types; all numbers, salts and keys in a hash string; all strings for soundness", "why_tests_cant": "the failing reader and all crafted strings are outside the tests", "anchors": ["passhash/argon2/argon2.go:GenerateSaltedHashWithTypeAndOpts", "passhash/argon2/argon2.go:CompareHashWithPassword", "passhash/argon2/argon2.go:generateSalt"]}
{"id": "C149", "title": "passhash9 accepts exactly the hashes of the password, and panics for exactly the large work factors", "statement": "GenerateHash gives $9$ and the base64 of algorithm, 16 bit work factor, 12 byte salt and 24 byte key, exactly for work factors 1 to 511, algorithms 0 to 4 and readers of 12 bytes (with Blowfish, algorithm 2, for passwords of 1 to 56 bytes); it panics otherwise. CompareHash is true exactly for the strings of this form with algorithm 0 to 4, work factor 1 to 512 and the PBKDF2 key of the password: no other spelling of a hash is accepted. It panics exactly for strings of this form with a work factor above 512, or with algorithm 2 and a password of no or more than 56 bytes. A work factor of 512 is accepted although it cannot be generated.", "quantifier": "all passwords, all strings as hashes, all work factors, algorithms and readers", "why_tests_cant": "which strings are accepted or panic quantifies over all of them", "anchors": ["passhash/passhash9/passhash9.go:GenerateHash", "passhash/passhash9/passhash9.go:CompareHash", "passhash/passhash9/passhash9.go:GetPbkdfPRF"]}
{"id": "C150", "title": "The BKS key store keeps what was added", "statement": "In a BKS store every Add function binds its alias to exactly the entry given (certificate, plain key, sealed key or secret), replacing what was there, so after any history the entry of an alias is the last one added; Marshal in any iteration order writes the documented layout (version, salt, iteration count, entries, end mark, HMAC under a key of 2 bytes for version 1 and 20 for version 2), and Parse with the same password gives the same entries back, with dates cut to milliseconds and sealed keys locked.", "quantifier": "every history of additions, every store whose lengths fit their fields, every map iteration order, salt, iteration count, password and both versions", "why_tests_cant": "The entries come from a Go map with random iteration order and the histories, lengths and dates are unbounded.", "anchors": ["jceks/bks_encode.go:Marshal", "jceks/bks_encode.go:AddCert", "jceks/bks_encode.go:AddSecret", "jceks/bks_decode.go:Parse", "jceks/bks_entry.go:bksSealedKeyEntry"]}
{"id": "C151", "title": "What the BKS parser accepts", "statement": "BKS Parse accepts a file exactly when it is a version 1 or 2 header, a salt, an iteration count, a well-formed list of entries with distinct aliases closed by a zero byte, and the HMAC of the entries under the key derived from the password; what follows is ignored. For version 1, which is the default, the key has two bytes, so for every list of entries one of 65536 keys yields a file that is accepted without knowing the password. A panic happens only if the data contains a negative 32-bit length, and a negative salt length does panic, before any MAC check.", "quantifier": "every byte string, password and key derivation", "why_tests_cant": "Acceptance is a statement about all byte strings, and the forgery about all entries and passwords.", "anchors": ["jceks/bks_decode.go:Parse", "jceks/bks_decode.go:readSealed", "jceks/bks_encode.go:Marshal", "jceks/binary.go:readBytes"]}
{"id": "C152", "title": "Sealed keys of a BKS store", "statement": "A sealed key that was added, written and read again is returned for its password, and GetSealedKey returns a key only if the stored data opens under the given password to the encoding of that key. However a loaded store with a locked sealed key makes Marshal panic; once unlocked, Marshal seals the key under the empty password; a password under which the data opens to something malformed replaces the key by an empty one; and a sealed entry without data makes GetSealedKey panic. The getters of plain entries return exactly the stored values and nothing for other kinds.", "quantifier": "every store, alias, password, key type and cipher that is the inverse of its encryption", "why_tests_cant": "The defects appear only over histories: load, unlock, write, load.", "anchors": ["jceks/bks_entry.go:Decrypt", "jceks/bks_entry.go:Encrypt", "jceks/bks_decode.go:GetSealedKey", "jceks/bks_encode.go:marshalSealed"]}
{"id": "C153", "title": "The UBER key store", "statement": "UBER Marshal followed by Parse with the same password gives the same entries, in any map iteration order; Parse accepts exactly the files of version 1 whose body decrypts under the password to well-formed entries, anything, and the SHA-1 digest of both; data that decrypts to fewer than 20 bytes makes Parse panic instead of failing.", "quantifier": "every store whose lengths fit, every byte string, password, salt and iteration count", "why_tests_cant": "Acceptance is about all byte strings and the panic needs a decryption that succeeds with a short result.", "anchors": ["jceks/uber_encode.go:Marshal", "jceks/uber_decode.go:Parse"]}
{"id": "C154", "title": "SM4 is the standard cipher and decrypts what it encrypts", "statement": "For every 16-byte key the SM4 cipher accepts, Decrypt of Encrypt of any 16-byte block is that block and conversely, other key lengths are refused, short buffers stop the call before anything is written and bytes behind the block are kept. The fast table rounds equal the byte-wise transformation on every 32-bit word, and the round keys and the ciphertext are those of the recurrences of GB/T 32907-2016 with the constants CK and FK.", "quantifier": "every key, every block, every 32-bit word, every destination", "why_tests_cant": "Test vectors cover a handful of keys and blocks; a wrong table entry or round key that a vector does not touch goes unseen.", "anchors": ["cipher/sm4/sm4.go:NewCipher", "cipher/sm4/sm4.go:Encrypt", "cipher/sm4/sm4.go:Decrypt", "cipher/sm4/sm4.go:expandKey"]}
{"id": "C155", "title": "SHACAL-2 is the SHA-256 compression keyed by the message block, and many keys are one", "statement": "For every key of 4 to 256 bytes SHACAL-2 encryption and decryption undo each other on every 32-byte block, and other lengths are refused. With a 64-byte key the encryption of a block is exactly the 64 steps of SHA-256 with the key as message block. Any other key acts as the 64-byte key made of its whole words, cut or filled with zeros: so distinct keys, such as two that differ only in a last partial word or after byte 64, give the same cipher.", "quantifier": "every key, every block, every destination", "why_tests_cant": "The rotation of the eight registers through sixty-four calls and the expansion of the key have to be right for all keys and blocks; equivalence of keys is a statement on all pairs of keys.", "anchors": ["cipher/shacal2/shacal2.go:NewCipher", "cipher/shacal2/shacal2.go:expandKey", "cipher/shacal2/shacal2.go:encrypt", "cipher/shacal2/shacal2.go:decrypt", "cipher/shacal2/utils.go:fwd", "cipher/shacal2/utils.go:rev"]}
{"id": "C156", "title": "Skipjack decrypts what it encrypts", "statement": "For every 10-byte key Skipjack encryption and decryption undo each other on every 8-byte block, other key lengths are refused, short buffers stop the call before anything is written and bytes behind the block are kept.", "quantifier": "every key, every block, every destination", "why_tests_cant": "A vector tries one key and block out of 2^144; that the rules A and B and the permutation G are undone in the right order with the right counters is a statement on all of them.", "anchors": ["cipher/skipjack/skipjack.go:NewCipher", "cipher/skipjack/skipjack.go:encrypt", "cipher/skipjack/skipjack.go:decrypt", "cipher/skipjack/skipjack.go:g", "cipher/skipjack/skipjack.go:ginv"]}
