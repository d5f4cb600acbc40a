{"id": "C01", "title": "PKCS padding round-trips for every block size up to 255", "statement": "For a block size N with 1 <= N <= 255 and any partial block shorter than N bytes, PkcsPadding::pad followed by PkcsPadding::unpad returns exactly the length of the partial block, the partial block is the prefix of the padded block, and neither call panics.", "quantifier": "every N in 1..=255, every byte string shorter than N", "why_tests_cant": "The number of partial blocks is 256^N; tests only sample three of them for N=4.", "anchors": ["src/pad.rs: PkcsPadding::pad, PkcsPadding::unpad"]}
{"id": "C02", "title": "PKCS pad: exact output and exact panic domain", "statement": "PkcsPadding::pad(partial) returns the N-byte block consisting of the partial block followed by N-len copies of the byte (N-len) mod 256, and it panics exactly when len >= N.", "quantifier": "every block size N and every input slice", "why_tests_cant": "Universally quantified over block sizes and inputs, including the panicking ones.", "anchors": ["src/pad.rs: PkcsPadding::pad"]}
{"id": "C03", "title": "PKCS unpad: exact result and exact panic domain", "statement": "PkcsPadding::unpad(block) returns N minus the last byte of the block when that byte is at most N, and panics otherwise (also for N = 0). It never looks at any other byte.", "quantifier": "every block size N and every N-byte block", "why_tests_cant": "256^N blocks; the property also says which bytes are irrelevant.", "anchors": ["src/pad.rs: PkcsPadding::unpad"]}
{"id": "C04", "title": "PKCS unpad rejects malformed padding (violated)", "statement": "unpad should accept a block only if it is the padding of some partial block. The code violates this: it accepts a last byte of 0 (returning N) and padding whose other bytes disagree with the last one. For N in 1..=255 a block is accepted and re-padding its prefix gives the block back exactly when it is genuine padding; every block with a last byte in 0..=N is accepted.", "quantifier": "every block size N in 1..=255 and every block", "why_tests_cant": "Needs a statement about every block that is not the image of pad.", "anchors": ["src/pad.rs: PkcsPadding::unpad"]}
{"id": "C05", "title": "PKCS padding with blocks larger than 255 bytes (round trip violated)", "statement": "For N >= 256 the pad byte is truncated to 8 bits: unpad(pad(p)) returns N - ((N - len) mod 256), which equals len exactly when N - len <= 255. Hence the round trip fails for every N >= 256 and every partial block of at most N - 256 bytes.", "quantifier": "every N >= 1, every partial block shorter than N", "why_tests_cant": "Unbounded in the block size.", "anchors": ["src/pad.rs: PkcsPadding::pad, PkcsPadding::unpad"]}
{"id": "C06", "title": "Bit padding: round trip, exact unpad, exact panic domain", "statement": "BitPadding::pad(p) for len < N yields p, 0x80, zeros and panics exactly when len >= N; unpad returns the position of the last 0x80 byte and the block with everything from there on zeroed, and panics exactly when there is no 0x80 byte; unpad(pad(p)) returns p zero-extended to N and len(p).", "quantifier": "every N, every partial block, every block", "why_tests_cant": "Quantifies over all blocks and sizes, including payloads that themselves contain 0x80 bytes.", "anchors": ["src/pad.rs: BitPadding::pad, BitPadding::unpad"]}
{"id": "C07", "title": "Block encryption processes exactly the padded message, block by block", "statement": "BlockEncryption::encrypt emits the concatenation of mode.encrypt_block applied in order (threading the mode's state) to the N-byte blocks of plaintext ++ padding, where padding is k copies of k with 1 <= k <= N and the padded length divisible by N; the emitted length is (len/N + 1) * N. It does not panic for 1 <= N <= 255 when the cipher does not.", "quantifier": "every block size 1..=255, cipher, mode state, plaintext", "why_tests_cant": "All plaintext lengths and all user-supplied ciphers and modes.", "anchors": ["src/lib.rs: BlockEncryption::encrypt, BlockCipherMode, EcbMode"]}
{"id": "C08", "title": "Block decryption inverts block encryption for every cipher and mode", "statement": "If for a mode/cipher pair decrypting a freshly encrypted block with the corresponding state gives the block back (as holds for EcbMode and any cipher whose decrypt inverts encrypt, and for a user-written CBC mode), then BlockEncryption::decrypt(encrypt(p)) emits exactly p, for 1 <= N <= 255 and any p (including empty).", "quantifier": "every block size 1..=255, every cipher, every mode, every plaintext", "why_tests_cant": "Universally quantified over implementations of two public traits and over message lengths.", "anchors": ["src/lib.rs: BlockEncryption::encrypt, BlockEncryption::decrypt, EcbMode"]}
{"id": "C09", "title": "Block decryption: exact failure domain and what has been emitted by then", "statement": "BlockEncryption::decrypt panics before emitting anything if the ciphertext is empty or not a multiple of N; otherwise it emits the decryptions of all blocks but the last, and then either emits the last block without its last k bytes (k = its last byte, k <= N) or, if k > N, panics having already emitted all earlier blocks.", "quantifier": "every ciphertext, cipher, mode and block size N >= 1", "why_tests_cant": "Concerns effects visible to the output callback at the moment of the panic, for every ciphertext.", "anchors": ["src/lib.rs: BlockEncryption::decrypt"]}
{"id": "C10", "title": "Malleated ciphertexts that decrypt without an error (violated)", "statement": "A user may expect decrypt to reject ciphertexts not produced by encrypt. The code violates this for every invertible ECB cipher: every block whose decryption ends in a zero byte is accepted as a final block and yields a whole block of output, although encrypt never produces it.", "quantifier": "every invertible cipher with 1 <= N <= 255 in ECB mode, every such block", "why_tests_cant": "Non-existence of any preimage plaintext cannot be tested.", "anchors": ["src/lib.rs: BlockEncryption::decrypt", "src/pad.rs: PkcsPadding::unpad"]}
{"id": "C11", "title": "Stream cipher: xor, involution and split invariance", "statement": "Encrypting a sequence of pieces with one StreamCipher gives the xor of the concatenated pieces with the key stream, independently of how the message is split; encrypting twice with equal fresh key streams is the identity; it panics exactly when the key stream ends before the data.", "quantifier": "every key stream, every message, every way of splitting it", "why_tests_cant": "All splittings of all messages.", "anchors": ["src/lib.rs: StreamCipher::encrypt"]}
{"id": "C12", "title": "AES field arithmetic is multiplication of polynomials modulo x^8+x^4+x^3+x+1", "statement": "The byte multiplication used by AES equals carry-less multiplication reduced modulo 0x11b for all pairs of bytes; doubling, tripling and dividing by three agree with it; and the generator walk used to build the S-box visits every nonzero byte exactly once together with its multiplicative inverse. The product is commutative, associative and distributive over xor, with unit 1 and an inverse for every nonzero byte.", "quantifier": "all pairs of bytes", "why_tests_cant": "Tests cover a handful of products.", "anchors": ["src/aes/field.rs: AesField::mul, mul2, mul3, div3, AesFieldIterator"]}
{"id": "C13", "title": "AES S-box equals the FIPS-197 definition and its inverse table inverts it", "statement": "For every byte, the forward table is the affine transform of the field inverse (0 mapped to itself before the transform) and the backward table is its two-sided inverse.", "quantifier": "all 256 bytes", "why_tests_cant": "Tests check 8 entries.", "anchors": ["src/aes/sbox.rs: SBOX, calculate_sbox, transform_affine"]}
{"id": "C14", "title": "AES key expansion conforms to FIPS-197", "statement": "For every 128, 192 and 256 bit key the expanded round keys are those of FIPS-197 KeyExpansion (Nk = 4, 6, 8), there are exactly Nr + 1 of them, and no index goes out of bounds.", "quantifier": "every key of each of the three sizes", "why_tests_cant": "2^128 or more keys.", "anchors": ["src/aes/expander.rs: AesKeyExpander::expand_key, expand_key_using_words"]}
{"id": "C15", "title": "AES encryption conforms to FIPS-197", "statement": "For every key size, key and 16-byte block, Aes::encrypt returns FIPS-197 Cipher(block, KeyExpansion(key)) and does not panic.", "quantifier": "every key and every block", "why_tests_cant": "2^256 inputs or more.", "anchors": ["src/aes/cipher.rs: Aes::with_128_bit_key, with_192_bit_key, with_256_bit_key, Aes::encrypt"]}
{"id": "C16", "title": "AES decryption is the two-sided inverse of AES encryption", "statement": "For every key, decrypt(encrypt(b)) = b and encrypt(decrypt(b)) = b for every 16-byte block b; so encryption is a permutation of the blocks. Decryption conforms to the FIPS-197 inverse cipher.", "quantifier": "every key and every block", "why_tests_cant": "2^256 inputs or more.", "anchors": ["src/aes/cipher.rs: Aes::encrypt, Aes::decrypt, mix_column, unmix_column"]}
{"id": "C17", "title": "AES keys given as integers are big-endian", "statement": "Key128/192/256::from([u64]) followed by Aes::from is the cipher whose key bytes are the big-endian bytes of the integers in order.", "quantifier": "every tuple of u64 values", "why_tests_cant": "2^128 or more tuples.", "anchors": ["src/aes/mod.rs: copy_u64s, From impls"]}
{"id": "C18", "title": "RC2 key expansion conforms to RFC 2268 and panics exactly outside its domain", "statement": "For 1 <= key length <= 128 and 1 <= effective bits <= 1024, key setup yields the expanded key of RFC 2268 section 2 and does not panic; for every other combination it panics.", "quantifier": "every key and every effective bit count (u16)", "why_tests_cant": "Unbounded key contents and all 65536 bit counts.", "anchors": ["src/rc/rc2.rs: RC2::from_key, RC2::expand_key"]}
{"id": "C19", "title": "RC2 encryption conforms to RFC 2268", "statement": "For every expanded key and block, encrypt returns the RFC 2268 section 3 result (5 mixing rounds, mash, 6 mixing, mash, 5 mixing on little-endian words).", "quantifier": "every valid key and every 8-byte block", "why_tests_cant": "2^64 blocks per key.", "anchors": ["src/rc/rc2.rs: RC2::encrypt, encrypt_block, mix, mash"]}
{"id": "C20", "title": "RC2 decryption is the two-sided inverse of RC2 encryption", "statement": "For every valid key and 8-byte block, decrypt(encrypt(b)) = b and encrypt(decrypt(b)) = b, without panicking.", "quantifier": "every valid key and block", "why_tests_cant": "2^64 blocks per key.", "anchors": ["src/rc/rc2.rs: RC2::encrypt, RC2::decrypt, rmix, rmash"]}
{"id": "C21", "title": "RC4 key stream conforms to the published algorithm and its state stays a permutation", "statement": "For every nonempty key, KeyStream::new followed by any number of next calls yields the RC4 (KSA then PRGA) byte sequence, and after any number of calls the internal table is a permutation of 0..=255; new panics exactly for the empty key.", "quantifier": "every key, every number of bytes drawn", "why_tests_cant": "Unbounded histories.", "anchors": ["src/rc/rc4.rs: KeyStream::new, KeyStream::next_key"]}
{"id": "C22", "title": "RC4 decrypt inverts encrypt, also across split messages", "statement": "For every nonempty key and message, decrypt with a fresh key stream of encrypt with a fresh key stream gives the message; encrypting the pieces of a message one after another gives the same bytes as encrypting it at once; output length equals input length.", "quantifier": "every nonempty key, message, splitting", "why_tests_cant": "Unbounded messages and splittings.", "anchors": ["src/rc/rc4.rs: KeyStream::encrypt, KeyStream::decrypt", "src/lib.rs: StreamCipher"]}
{"id": "C23", "title": "RC5 conforms to RC5-32/r/b for nonempty keys", "statement": "For every key of 1..=255 bytes, every round count and every block, RC5 key setup and encrypt return the result of Rivest's RC5-32/r/b, without panicking.", "quantifier": "every key of 1 to 255 bytes, every u8 round count, every block", "why_tests_cant": "Tests use 16-byte keys and 12 rounds only.", "anchors": ["src/rc/rc5.rs: RC5::new, RC5::expand_key, RC5::encrypt"]}
{"id": "C24", "title": "RC5 decryption is the two-sided inverse of RC5 encryption", "statement": "For every key accepted by RC5::new, every number of rounds and every 8-byte block, decrypt(encrypt(b)) = b and encrypt(decrypt(b)) = b.", "quantifier": "every accepted key, round count and block", "why_tests_cant": "2^64 blocks per key; tests never decrypt directly.", "anchors": ["src/rc/rc5.rs: RC5::encrypt, RC5::decrypt"]}
{"id": "C25", "title": "RC5 key domain (zero-length key violated)", "statement": "RC5::new panics exactly when the key has more than 255 bytes or is empty. RC5 itself allows b = 0, so acceptance of all RC5 keys 0 <= b <= 255 is violated at b = 0 for every round count.", "quantifier": "every key length and round count", "why_tests_cant": "Needs all round counts and all lengths.", "anchors": ["src/rc/rc5.rs: RC5::new, RC5::expand_key"]}
{"id": "C26", "title": "MD2 conforms to RFC 1319 for every message", "statement": "md2 of any byte sequence equals the RFC 1319 digest (with the S-box checksum of its errata), is 16 bytes long, and the computation never panics.", "quantifier": "every byte sequence", "why_tests_cant": "Unbounded messages.", "anchors": ["src/md/md2.rs: hash, Hasher"]}
{"id": "C27", "title": "MD4 conforms to RFC 1320 for every message", "statement": "md4 of any byte sequence shorter than 2^61 bytes equals the RFC 1320 digest and never panics.", "quantifier": "every byte sequence shorter than 2^61 bytes", "why_tests_cant": "Unbounded messages; padding boundaries at every length mod 64.", "anchors": ["src/md/md4.rs: hash, Hasher, Block"]}
{"id": "C28", "title": "MD5 conforms to RFC 1321 for every message", "statement": "md5 of any byte sequence shorter than 2^61 bytes equals the RFC 1321 digest and never panics.", "quantifier": "every byte sequence shorter than 2^61 bytes", "why_tests_cant": "Unbounded messages; padding boundaries at every length mod 64.", "anchors": ["src/md/md5.rs: hash, Hasher, Block, T"]}
{"id": "C29", "title": "SHA padding is the FIPS 180-4 padding and is injective", "statement": "For every message the chunks that are hashed are exactly the blocks of message || 0x80 || zeros || bit length (64-bit for SHA-1/224/256, 128-bit for SHA-384/512) with the minimal number of zeros, so two different messages never lead to the same sequence of chunks.", "quantifier": "every message (shorter than 2^61 bytes) and every pair of messages", "why_tests_cant": "Pairs of unbounded messages.", "anchors": ["src/sha/pad.rs: sha1_padding", "src/sha/sha2.rs: sha2_padding, sha2_padding_big"]}
{"id": "C30", "title": "SHA-1 conforms to FIPS 180-4 for every message", "statement": "sha1(m) equals the FIPS 180-4 digest for every message shorter than 2^61 bytes and never panics.", "quantifier": "every message shorter than 2^61 bytes", "why_tests_cant": "Unbounded messages.", "anchors": ["src/sha/sha1.rs: sha1, process_chunk"]}
{"id": "C31", "title": "SHA-224 and SHA-256 conform to FIPS 180-4 for every message", "statement": "sha224(m) and sha256(m) equal the FIPS 180-4 digests for every message shorter than 2^61 bytes and never panic.", "quantifier": "every message shorter than 2^61 bytes", "why_tests_cant": "Unbounded messages; tests have no SHA-256 message longer than zero bytes.", "anchors": ["src/sha/sha2.rs: sha224, sha256, process_chunk"]}
{"id": "C32", "title": "SHA-384 and SHA-512 conform to FIPS 180-4 for every message", "statement": "sha384(m) and sha512(m) equal the FIPS 180-4 digests for every message (of fewer than 2^64 bytes, the address space) and never panic.", "quantifier": "every message of fewer than 2^64 bytes", "why_tests_cant": "Unbounded messages; tests only hash the empty string.", "anchors": ["src/sha/sha2.rs: sha384, sha512, process_big_chunk"]}
{"id": "C33", "title": "Hash constants are the published irrational-number expansions", "statement": "The SHA-2 round constants and initial values are the prescribed bits of the fractional parts of cube and square roots of the first primes; the SHA-1/MD4 constants are floor(2^30 sqrt k); the MD5 table is floor(2^32 |sin i|); the RC5 magic constants are the odd integers nearest to (e-2)2^32 and (phi-1)2^32.", "quantifier": "all table entries against their real-number definitions", "why_tests_cant": "Tests that pass on a few messages do not pin down a table entry to its definition.", "anchors": ["src/sha/sha2.rs: ROUND_CONSTANTS, ROUND_CONSTANTS_BIG, INITIAL_HASH_*", "src/md/md5.rs: T", "src/rc/rc5.rs: P32, Q32"]}
{"id": "C34", "title": "Hash values convert to 32-bit words and back without loss", "statement": "For Hash160, Hash224 and Hash256, converting words to a hash value and back gives the words, and the byte form is their big-endian concatenation; digests delivered as bytes have lengths 20, 28, 32, 48 and 64.", "quantifier": "every word array of each size", "why_tests_cant": "2^160 or more values.", "anchors": ["src/sha/hash.rs: From impls, u32s_to_bytes, bytes_to_u32s"]}
{"id": "C35", "title": "Hash values convert to 64-bit words and back without loss (violated)", "statement": "Converting a Hash384 or Hash512 into its array of u64 words should return the words it was built from. The code violates this: the conversion panics for every hash value.", "quantifier": "every Hash384 and every Hash512 value", "why_tests_cant": "A statement about every value; no test exercises the conversion.", "anchors": ["src/sha/hash.rs: bytes_to_u64s"]}
{"id": "C36", "title": "Parsing a hash value from hex", "statement": "HashValue::from_hex accepts exactly the strings of 2N hexadecimal digits (either case), returns the bytes they denote, so that it inverts printing in hex, and reports an error, never a panic, on every other input.", "quantifier": "every input string, every hash size N", "why_tests_cant": "All strings.", "anchors": ["src/sha/hash.rs: FromHex for HashValue"]}
{"id": "C37", "title": "BigUint construction and export", "statement": "from_be_bytes, from_le_bytes and From<u128> build the canonical (no leading zero byte) representation of the number denoted by the bytes; to_be_bytes gives the minimal big-endian form; equality of canonical values is equality of numbers; to_be_bytes and from_be_bytes are inverse on canonical data.", "quantifier": "every byte string and every u128", "why_tests_cant": "Unbounded byte strings.", "anchors": ["src/big/uint.rs: from_be_bytes, from_le_bytes, from_u128, to_be_bytes"]}
{"id": "C38", "title": "BigUint addition is exact", "statement": "For all numbers a += b (big or u8) yields the exact sum in canonical form, never panicking.", "quantifier": "every pair of BigUints of any size", "why_tests_cant": "Unbounded carries.", "anchors": ["src/big/uint.rs: AddAssign<u8>, AddAssign<&BigUint>"]}
{"id": "C39", "title": "BigUint subtraction is exact for a >= b, and its behaviour for a < b", "statement": "For a >= b, a -= b and a - &b yield the exact canonical difference without panicking, whatever spare capacity the allocator provides; for a < b the result is silently (a - b) mod 2^bits(a) when the bytes of b fit in the capacity that the allocator gave for one byte more than a has, and otherwise the subtraction panics.", "quantifier": "every pair of BigUints (up to the 2^32-bit limit of bits_used), every allocator capacity", "why_tests_cant": "Unbounded borrow chains; allocator dependent.", "anchors": ["src/big/uint.rs: SubAssign<&BigUint>, Sub<&BigUint>"]}
{"id": "C40", "title": "BigUint comparison agrees with the numbers", "statement": "cmp, partial_cmp and the comparison operators on canonical values return the order of the denoted numbers, hence a total order consistent with equality.", "quantifier": "every pair of canonical BigUints (below 2^32 bits)", "why_tests_cant": "Unbounded pairs.", "anchors": ["src/big/uint.rs: Ord, PartialOrd"]}
{"id": "C41", "title": "BigUint remainder is exact for every nonzero modulus; behaviour for modulus zero", "statement": "a %= m yields the exact canonical remainder for m > 0. For m = 0 the code does not consistently panic: it returns a unchanged when a < 128 and panics otherwise.", "quantifier": "every pair of BigUints (below 2^32 bits)", "why_tests_cant": "Unbounded division loops.", "anchors": ["src/big/uint.rs: RemAssign<&BigUint>"]}
{"id": "C42", "title": "BigUint shifts multiply and divide by powers of two", "statement": "a <<= k is a * 2^k in canonical form for a > 0 and any k; a >>= k is floor(a / 2^k) in canonical form whenever k/8 is at most the number of bytes of a, and panics otherwise.", "quantifier": "every canonical BigUint and every u32 shift", "why_tests_cant": "Unbounded values and shifts.", "anchors": ["src/big/uint.rs: ShlAssign<u32>, ShrAssign<u32>"]}
{"id": "C43", "title": "BigUint bit queries and updates", "statement": "bits_used is the bit length, is_set(i) is bit i of the number for every u32 i, update(i, b) changes exactly bit i and panics exactly when i is outside the stored bytes.", "quantifier": "every canonical BigUint (below 2^32 bits) and every index", "why_tests_cant": "Unbounded indices.", "anchors": ["src/big/uint.rs: bits_used, is_set, update"]}
{"id": "C44", "title": "BigUint conversion to and from u128", "statement": "as_u128 after From<u128> returns the value; as_u128 returns Ok exactly for numbers below 2^128.", "quantifier": "every u128 and every canonical BigUint", "why_tests_cant": "2^128 values and beyond.", "anchors": ["src/big/uint.rs: as_u128, From<u128>"]}
{"id": "C45", "title": "Public BigUint operations preserve canonical form (violated)", "statement": "Every public operation should leave a BigUint on which all other operations work. The code violates this in two places: 0 <<= k for every k >= 8, and update clearing the only nonzero bits of the top byte, leave a value on which bits_used (hence comparison and remainder) panics. All other operations preserve canonical form.", "quantifier": "every sequence of public BigUint operations", "why_tests_cant": "Histories of operations.", "anchors": ["src/big/uint.rs: ShlAssign<u32>, update, bits_used"]}
{"id": "C46", "title": "RSA primitive computes modular exponentiation", "statement": "RsaEncryption::encrypt and decrypt return (m ^ exponent) mod modulo for every modulus greater than one, exactly and in canonical form.", "quantifier": "every message, exponent and modulus above one (below the 2^32-bit limit)", "why_tests_cant": "Unbounded numbers.", "anchors": ["src/rsa/mod.rs: RsaEncryption::encrypt, decrypt, pow_mod, mul_mod"]}
{"id": "C47", "title": "create_keys yields matching RSA keys without overflow", "statement": "For all primes p, q with p*q < 2^128 and every u128 e coprime to lcm(p-1, q-1), create_keys does not panic or overflow and returns n = p*q and d with e*d = 1 mod lcm(p-1, q-1); it panics if e is not coprime. For all other arguments of at most 128 bits the exact result or panic is given, including composite and degenerate factors and least common multiples of 2^127 or more, where the signed arithmetic of inverse overflows for all but the listed exponents.", "quantifier": "every pair of primes with product below 2^128 and every u128 exponent", "why_tests_cant": "All primes; overflow freedom of the signed 128-bit extended Euclid.", "anchors": ["src/rsa/mod.rs: create_keys, lcm, inverse"]}
{"id": "C48", "title": "RSA decryption inverts encryption (both directions)", "statement": "For keys made by create_keys from distinct primes, decrypt(encrypt(m)) = m for every m < n with either key as the encryption key; for a general m the result is m mod n.", "quantifier": "every pair of distinct primes with product below 2^128, every valid e, every m", "why_tests_cant": "All keys and messages.", "anchors": ["src/rsa/mod.rs: create_keys, RsaEncryption"]}
{"id": "C49", "title": "create_keys rejects unusable primes (violated)", "statement": "create_keys accepts p = q and non-prime p, q; with p = q (for every prime p and every valid exponent e >= 2) there is a message smaller than n that does not survive encryption followed by decryption.", "quantifier": "every prime p used twice", "why_tests_cant": "A statement over all primes.", "anchors": ["src/rsa/mod.rs: create_keys"]}
{"id": "C50", "title": "MGF1 conforms to RFC 8017", "statement": "mgf1(seed, len) is the len-byte prefix of Hash(seed||0) || Hash(seed||1) || ... with 4-byte big-endian counters, for every hash; it terminates and does not overflow its counter for len <= (2^32-1)*N; longer outputs extend shorter ones.", "quantifier": "every seed, output length and hash function with N >= 1 output bytes", "why_tests_cant": "Unbounded lengths and arbitrary hash.", "anchors": ["src/rsa/mgf.rs: mgf1"]}
{"id": "C51", "title": "OAEP decode inverts encode", "statement": "RsaPadding::decode(label, encode(label, m, k), k) = Ok(m) for every label, message and k >= len(m) + 66; the encoding has length k and starts with a zero byte; encode panics exactly when k is smaller.", "quantifier": "every label, message, output length", "why_tests_cant": "Unbounded messages and labels.", "anchors": ["src/rsa/oaep.rs: encode, decode", "src/rsa/pad.rs: RsaPadding"]}
{"id": "C52", "title": "OAEP encoding conforms to RFC 8017 with seed 42..42 (randomisation violated)", "statement": "The encoding is EME-OAEP of RFC 8017 with the fixed seed 42,...,42. Consequently the scheme is deterministic, and for two messages of equal length the xor of the two encodings' data blocks equals the xor of the messages: padding of different messages is not masked independently.", "quantifier": "every pair of messages of equal length, every label and k", "why_tests_cant": "Pairs of messages; a confidentiality-relevant relation between outputs.", "anchors": ["src/rsa/oaep.rs: OaepPadding::encode"]}
{"id": "C53", "title": "OAEP decode accepts exactly the RFC 8017 encodings", "statement": "decode(label, em, len(em)) returns Ok(m) if and only if em is the EME-OAEP encoding of m under some seed with that label's hash; otherwise it returns an error, and it panics exactly when em is shorter than 2N+1 bytes (an empty em, or one too short to slice) and no earlier check fails.", "quantifier": "every byte string em, every label", "why_tests_cant": "All ciphertext-derived strings.", "anchors": ["src/rsa/oaep.rs: OaepPadding::decode"]}
{"id": "C54", "title": "encrypt_message never trips its own assertion and computes RSAES-OAEP", "statement": "With RsaPadding and a modulus of at least len(m)+66 bytes, encrypt_message does not panic and returns the minimal big-endian bytes of (OAEP(m)^e mod n); it panics if the modulus is too short.", "quantifier": "every modulus, exponent, message", "why_tests_cant": "Unbounded moduli.", "anchors": ["src/rsa/mod.rs: RsaEncryption::encrypt_message"]}
{"id": "C55", "title": "decrypt_message inverts encrypt_message when the ciphertext has full length", "statement": "For a valid key pair, decrypt_message(encrypt_message(m)) = m whenever the ciphertext has as many bytes as the modulus.", "quantifier": "every key pair, every message, whenever the ciphertext has full length", "why_tests_cant": "All keys and messages.", "anchors": ["src/rsa/mod.rs: RsaEncryption::encrypt_message, decrypt_message"]}
{"id": "C56", "title": "decrypt_message inverts encrypt_message for every message (violated)", "statement": "decrypt_message(encrypt_message(m)) = m for every valid key pair and message. The code violates this: leading zero bytes of the ciphertext are dropped, and decrypt_message takes the ciphertext length for the modulus length, so decryption panics; witnessed by a concrete key and message.", "quantifier": "every valid key pair and message", "why_tests_cant": "Fails for about one message in 256, which fixed test vectors miss.", "anchors": ["src/rsa/mod.rs: RsaEncryption::encrypt_message, decrypt_message"]}
{"id": "C57", "title": "ASN.1 parser accepts exactly its grammar", "statement": "Asn1::try_from(bytes) = Ok(v) if and only if bytes is an encoding of v in the accepted BER subset (definite lengths, short or long form), consuming all bytes; nested sequences of any depth included.", "quantifier": "every byte string and every ASN.1 value", "why_tests_cant": "Unbounded nesting and lengths.", "anchors": ["src/pem/asn1.rs: Asn1::parse_from_bytes, TryFrom<&[u8]>"]}
{"id": "C58", "title": "DER round trip", "statement": "Encoding any ASN.1 value of the supported kinds in DER and parsing it returns the value; hence distinct values have distinct encodings.", "quantifier": "every ASN.1 value", "why_tests_cant": "Unbounded nesting.", "anchors": ["src/pem/asn1.rs: Asn1::try_from"]}
{"id": "C59", "title": "ASN.1 parser never panics (violated)", "statement": "Parsing untrusted bytes should return an error rather than panic. The code violates this for length-of-length above 16, truncated long lengths and empty bit strings; these three malformations, behind well-formed data, are exactly the inputs that panic, each with its own reason, and every error is returned for exactly the malformation it names.", "quantifier": "every byte string", "why_tests_cant": "All byte strings.", "anchors": ["src/pem/asn1.rs: Asn1::parse_from_bytes"]}
{"id": "C60", "title": "ASN.1 lengths are not truncated (violated)", "statement": "A declared length larger than the data must be rejected. The code violates this for lengths of 2^64 or more, which are reduced modulo 2^64.", "quantifier": "every declared length", "why_tests_cant": "Lengths far beyond any allocatable test.", "anchors": ["src/pem/asn1.rs: Asn1::parse_from_bytes"]}
{"id": "C61", "title": "PEM round trip", "statement": "Parsing the printed form of a PEM value returns the same label and data, for every data and every label without a line feed; it fails for labels containing one. Whatever parses is parsed to the same value again after printing.", "quantifier": "every label and data", "why_tests_cant": "Unbounded data and labels.", "anchors": ["src/pem/mod.rs: Display for PEM, FromStr for PEM"]}
{"id": "C62", "title": "PEM parsing: what is accepted and returned", "statement": "from_str succeeds exactly if the trimmed lines contain one BEGIN line followed by one END line with the same label, and the lines in between concatenate to valid base64; lines outside and white space around lines do not matter.", "quantifier": "every input string", "why_tests_cant": "All strings.", "anchors": ["src/pem/mod.rs: extract_pem_pieces, parse_pem_data, decode_pem"]}
{"id": "C63", "title": "PEM printing wraps at 64 columns", "statement": "The printed form consists of the BEGIN line, base64 lines of exactly 64 characters except the last which is not longer, and the END line.", "quantifier": "every label and data", "why_tests_cant": "Unbounded data.", "anchors": ["src/pem/mod.rs: Display for PEM"]}
{"id": "C64", "title": "RSA key import reads back exported keys", "statement": "Parsing the standard DER/PEM encoding (PKCS#8 / SubjectPublicKeyInfo) of any RSA key returns its modulus and exponent.", "quantifier": "every modulus, exponent and CRT field", "why_tests_cant": "Unbounded integers.", "anchors": ["src/rsa/mod.rs: TryFrom<PEM> for PrivateKey, PublicKey", "src/rsa/asn1.rs"]}
{"id": "C65", "title": "RSA key import accepts only RSA key structures", "statement": "If import of a PEM succeeds, then its label is PRIVATE KEY (PUBLIC KEY), the data parses as the PKCS#8 (SubjectPublicKeyInfo) structure with the rsaEncryption OID and NULL parameters, and the returned numbers are the unsigned values of the corresponding INTEGER fields.", "quantifier": "every PEM value", "why_tests_cant": "All inputs.", "anchors": ["src/rsa/mod.rs: TryFrom<PEM>", "src/rsa/asn1.rs: from_asn1"]}
{"id": "C66", "title": "create_keys keys cannot be used with RsaPadding (usability violated)", "statement": "A key returned by create_keys has a modulus of at most 16 bytes, so encrypt_message with RsaPadding panics for every such key and every message.", "quantifier": "every result of create_keys and every message", "why_tests_cant": "All keys.", "anchors": ["src/rsa/mod.rs: create_keys, encrypt_message", "src/rsa/oaep.rs"]}
{"id": "C67", "title": "PEM errors are reported as documented", "statement": "If from_str rejects a text, the error names the first defect met: no BEGIN line, END before BEGIN, malformed BEGIN or END line, second BEGIN or END line, missing END line, different labels, or bad base64; parsing never panics.", "quantifier": "every text and every error", "why_tests_cant": "All malformed inputs.", "anchors": ["src/pem/mod.rs: extract_pem_pieces, parse_pem_data, decode_pem"]}
{"id": "C68", "title": "Base64 as specified", "statement": "The modelled base64 codec (third-party crate, standard engine) is RFC 4648 base64: encoding is the bit regrouping, decoding succeeds exactly on canonical encodings and is its inverse.", "quantifier": "every byte string and every character string", "why_tests_cant": "Unbounded data.", "anchors": ["src/pem/mod.rs: BASE64_STANDARD.encode, decode"]}
{"id": "C69", "title": "From key files to the decrypted message", "statement": "For all distinct primes, matching exponents and PEM texts of the two standard key encodings, both imports succeed, every message at least 66 bytes shorter than the modulus is encrypted, and if the ciphertext has the length of the modulus it decrypts to the message.", "quantifier": "all primes, exponents, PEM layouts and messages", "why_tests_cant": "One key pair is tested.", "anchors": ["src/rsa/mod.rs", "src/rsa/asn1.rs", "src/pem/mod.rs", "tests/rsa.rs: example_encrypt_e2e_big"]}
{"id": "C70", "title": "Block encryption for every block size, including those above 255", "statement": "For every block size N >= 1 and an invertible mode, encryption emits the encrypted blocks of the message followed by k = N - len mod N copies of the byte k mod 256, and decryption of that gives the message followed by the k - k mod 256 bytes of padding that are not recognised; so the round trip holds exactly when k <= 255, and fails for N = 300 and a three byte message. N = 0 panics without output.", "quantifier": "every block size, cipher, mode and message", "why_tests_cant": "No test uses a block size above 16.", "anchors": ["src/lib.rs: BlockEncryption", "src/pad.rs: PkcsPadding"]}
{"id": "C71", "title": "The error of a failed RSA key import names the defect", "statement": "If import of a PEM value fails, the error is determined by the first defect that applies, from the outside in: the label, the ASN.1 syntax of the outer bytes, the shape of the outer structure (sequence, number of elements, version, algorithm, type of the key field, unused bits), the ASN.1 syntax of the inner bytes, and the shape of the inner structure (sequence, number of elements, integers, version field); each error is returned for exactly those defects.", "quantifier": "every PEM value and every error", "why_tests_cant": "All malformed key files.", "anchors": ["src/rsa/asn1.rs: from_asn1 (all)", "src/rsa/mod.rs: TryFrom<PEM>"]}
{"id": "C72", "title": "Release builds agree with debug builds except where those report an overflow", "statement": "For every function whose arithmetic can overflow, and all arguments: unless the build with overflow checks panics with an arithmetic overflow, the build without them gives the same value or the same panic. Hence the digests of release builds are those of the standards, and block decryption is the same in both builds for all inputs.", "quantifier": "every function with checked arithmetic, all arguments", "why_tests_cant": "Tests run in one profile only.", "anchors": ["src/pad.rs", "src/aes/expander.rs", "src/rc/rc2.rs", "src/rc/rc5.rs", "src/md/*.rs", "src/sha/*.rs", "src/big/uint.rs", "src/rsa/*.rs", "src/pem/asn1.rs"]}
{"id": "C73", "title": "Key creation in release builds (silently wrong keys)", "statement": "Without overflow checks inverse is right for every modulus below 2^128, and create_keys uses p*q and (p-1)*(q-1) reduced modulo 2^128: for all arguments its result or panic is given. So for primes whose product is 2^128 or more, where the debug build panics, it silently returns keys that do not decrypt; witnessed by two concrete primes and a message.", "quantifier": "all factors and exponents", "why_tests_cant": "Tests run with overflow checks and small primes.", "anchors": ["src/rsa/mod.rs: create_keys, lcm, inverse"]}
{"id": "C74", "title": "Where release builds do something else than debug builds", "statement": "Without overflow checks: RC2 key setup outside of its domain, unpadding with block size 0, the ASN.1 parser and key import on over-long lengths, and decrypt_message on a result longer than the ciphertext still panic, with an index out of bounds instead of an overflow, on exactly the same inputs; bits_used is reduced modulo 2^32.", "quantifier": "all arguments", "why_tests_cant": "Tests run with overflow checks.", "anchors": ["src/rc/rc2.rs: Rc2Cipher::from_key", "src/pad.rs: PkcsPadding::unpad", "src/pem/asn1.rs: parse_from_bytes", "src/rsa/mod.rs: decrypt_message", "src/big/uint.rs: bits_used"]}
{"id": "C75", "title": "A hash collision is a collision of the compression function", "statement": "Whenever two different messages have the same SHA-1, SHA-256, SHA-512, MD4 or MD5 digest, two different inputs of the compression function with the same result occur among the (chaining value, block) pairs of the two messages (for SHA-224 and SHA-384: that, or the truncation of two different final values). Injectivity of MD4, MD5 and SHA-1 as implemented is false, with the published collisions as witnesses.", "quantifier": "all pairs of messages below the length limit of the hash", "why_tests_cant": "Collisions cannot be enumerated; the statement rules out padding or chaining bugs that would add collisions.", "anchors": ["src/sha/sha1.rs", "src/sha/sha2.rs", "src/sha/pad.rs", "src/md/md4.rs", "src/md/md5.rs"]}
{"id": "C76", "title": "Length extension of the hash functions", "statement": "From the digest of m and the length of m alone, the digest of m followed by its padding and any continuation x can be computed (SHA-1, SHA-256, SHA-512, MD4, MD5): these hashes must not be used as a keyed hash of secret || message. Equal-length SHA-1 collisions remain collisions under every common continuation.", "quantifier": "all messages and continuations below the length limit", "why_tests_cant": "For all secrets.", "anchors": ["src/sha/sha1.rs", "src/sha/sha2.rs", "src/md/md4.rs", "src/md/md5.rs"]}
{"id": "C77", "title": "The iterator returned by StreamCipher::encrypt is lazy and keeps data and keys in step", "statement": "For any data and key iterators, n calls of next produce the first n encrypted bytes and take exactly n items of each; if the data ends first, the key iterator has not been advanced beyond it; if the keys end first, the iterator panics after the last byte for which there was a key; panics of either iterator are passed on. Collecting everything is the function of C11, and take(n) is that function on the first n bytes.", "quantifier": "all data and key iterators, all numbers of calls", "why_tests_cant": "The existing test collects everything.", "anchors": ["src/lib.rs: StreamCipher::encrypt"]}
{"id": "C78", "title": "Malleability of the stream cipher, ECB and textbook RSA", "statement": "Without the key: the xor of two ciphertexts made from the same key state (for RC4, under the same key) is the xor of the plaintexts, and xoring a ciphertext with e xors the decryption with e; under ECB two ciphertext blocks are equal iff the plaintext blocks are, and any rearrangement of the blocks followed by the last one decrypts to the same rearrangement of the plaintext; the product of two RSA ciphertexts modulo n is the ciphertext of the product and decrypts to it. The primitives alone give no integrity.", "quantifier": "all keys, messages, invertible block ciphers and block selections", "why_tests_cant": "Statement about all alterations of a ciphertext.", "anchors": ["src/lib.rs: StreamCipher::encrypt", "src/lib.rs: EcbMode", "src/rc/rc4.rs", "src/rsa/mod.rs: RsaEncryption"]}
{"id": "C79", "title": "Size of the key spaces and equivalent keys", "statement": "RC2 with t effective bits has exactly 2^t key schedules: every key of 1 to 128 bytes gives one of them, each is reached, and they are different. RC4 keys with the same 256 repeated bytes (repetitions of a key, and keys that agree in the first 256 bytes) give the same cipher. RC5 keys that differ in trailing zeros up to a word boundary give the same cipher. No two AES keys have the same schedule, and any consecutive round keys with at least as many words as the key determine the key.", "quantifier": "all keys and all effective lengths", "why_tests_cant": "A statement about the whole key space.", "anchors": ["src/rc/rc2.rs: Rc2Cipher::from_key", "src/rc/rc4.rs: KeyStream::new", "src/rc/rc5.rs: Rc5Cipher::new", "src/aes/expander.rs"]}
{"id": "C80", "title": "The RC4 generator is reversible and periodic", "statement": "The state of the generator before a step is determined by the state after it; so every state recurs and the stream of every key is periodic from its first byte. If the third entry of the initial table is 0 and the second is not 2, the second byte of the stream is 0 (the Mantin-Shamir bias). Finney's states (y = x + 1 and S[y] = 1) are closed under steps in both directions, and no key ever leads to one.", "quantifier": "all states and all keys", "why_tests_cant": "There are 256! * 2^16 states.", "anchors": ["src/rc/rc4.rs: KeyStream"]}
{"id": "C81", "title": "The sequence of operations of an RSA exponentiation is the exponent", "statement": "For every message, exponent and modulus, the modular multiplications and squarings done by pow_mod spell the bits of the exponent, lowest first, and the additions and doublings of mul_mod the bits of its second factor: the sequence determines the private exponent, and the number of operations is the bit length plus the number of ones. That operations are a function of the bit length is false.", "quantifier": "all canonical exponents and all other arguments", "why_tests_cant": "Tests look at results only.", "anchors": ["src/rsa/mod.rs: mul_mod, pow_mod"]}
{"id": "C82", "title": "The recursion depth of the ASN.1 parser is the nesting depth of the input", "statement": "Parsing an encoded value needs exactly as many nested calls of parse_from_bytes as the value is deep. This is at most half of the length of the input, and there is no other limit: for every n there is an accepted input of at most 10 n bytes that needs n nested calls.", "quantifier": "all encoded values, all depths", "why_tests_cant": "Tests parse shallow values.", "anchors": ["src/pem/asn1.rs: parse_from_bytes"]}
{"id": "C83", "title": "decrypt_message is a Manger oracle: its panic messages decrypt every ciphertext", "statement": "For a ciphertext of the length of the modulus, decrypt_message panics with the message 'first byte is not 0' exactly if the decrypted number is at least 256^(k-1). With the public key and these answers a simplified form of Manger's attack recovers the encoded message of every ciphertext made by encrypt_message, if the modulus is at least 2 * 256^(k-1), with at most 4112 k questions.", "quantifier": "all keys of two primes, all messages and ciphertexts", "why_tests_cant": "The attack works for all messages; tests do not look at panic messages.", "anchors": ["src/rsa/mod.rs: decrypt_message", "src/rsa/oaep.rs: decode"]}
{"id": "C84", "title": "BigUint operations on non-canonical values", "statement": "For every value whose most significant byte is zero: bits_used, is_set, cmp, % (on either side) and subtraction from it panic; addition, subtraction of it, shifts and as_u128 are exact, and it is stated which of them restore the canonical form; == distinguishes it from the canonical value of the same number; RSA with such a message, exponent or modulus panics.", "quantifier": "all values of BigUint that are not canonical", "why_tests_cant": "Tests never use such values.", "anchors": ["src/big/uint.rs", "src/rsa/mod.rs: pow_mod, mul_mod"]}
{"id": "C85", "title": "What error messages and Debug output disclose", "statement": "Error texts of the ASN.1 parser, of PEM reading, of the key imports and of OAEP decoding are those listed, and different for different errors. An Asn1 value, a PrivateKey (with d), a PublicKey and a HashValue can be read back from their Debug output. The error for a private key file whose contents (or whose inner OCTET STRING) hold a value other than a sequence prints that value, hence possibly the whole private key (likewise for public key files, with less harm); no other error of these functions prints a list of bytes.", "quantifier": "all errors, all values, all PEM values", "why_tests_cant": "Tests do not look at error texts.", "anchors": ["src/pem/asn1.rs", "src/rsa/asn1.rs", "src/rsa/mod.rs", "src/rsa/oaep.rs", "src/pem/mod.rs"]}
{"id": "C86", "title": "Block decryption is a padding oracle for the last byte of each block", "statement": "In ECB mode the decryption of a single block panics exactly if the last byte of its plaintext is more than the block size. In CBC mode, for even block sizes, the panics on 256 questions determine the last byte of every block of every encrypted message. Nothing else can be learnt: blocks whose decryptions agree in the last byte get the same answers, and outputs of the same length, for every prefix of the ciphertext.", "quantifier": "all block sizes, ciphers that decrypt every block (shown for AES, RC2, RC5), keys, messages", "why_tests_cant": "An attack works with all messages; tests do not tamper with ciphertexts.", "anchors": ["src/lib.rs: BlockEncryption::decrypt", "src/pad.rs: PkcsPadding::unpad"]}
{"id": "C87", "title": "Two different blocks differ in at least 25 S-box inputs of any four AES rounds", "statement": "For every key and every pair of different blocks, the inputs of SubBytes differ in at least five bytes over any two and in at least 25 bytes over any four consecutive rounds. A changed column and its image under MixColumns have at least five changed bytes together. For every nonzero input difference and every output difference of the S-box at most four inputs fit; no byte is mapped to itself or to its complement.", "quantifier": "all keys of 16, 24 and 32 bytes, all pairs of different blocks, all rounds; all bytes", "why_tests_cant": "The bound concerns all pairs of 128-bit blocks under all keys.", "anchors": ["src/aes/cipher.rs: Aes::encrypt, mix_column", "src/aes/sbox.rs: SBOX"]}
{"id": "C88", "title": "Every block has exactly one state that it does not change", "statement": "For each of MD4, MD5, SHA-1, SHA-256 and SHA-512 and every block: for every value t there is exactly one state h such that the compression function maps h to h + t (word by word). In particular exactly one state is a fixed point of the block, and any number of copies of the block leaves it unchanged.", "quantifier": "all blocks, all states", "why_tests_cant": "There are 2^128 to 2^512 states and 2^512 or 2^1024 blocks.", "anchors": ["src/sha/sha1.rs: process_chunk", "src/sha/sha2.rs: process_chunk, process_big_chunk", "src/md/md4.rs: Hasher::process_block", "src/md/md5.rs: Hasher::process_block"]}
{"id": "C89", "title": "Ciphertexts that are not below the modulus are rejected", "statement": "decrypt_message accepts only ciphertexts below the modulus (RFC 8017, 5.1.2). This is false: only the residue of the ciphertext counts, so every multiple of the modulus that still fits in the length may be added to a ciphertext without changing the decrypted message.", "quantifier": "all keys, all ciphertexts, all messages, all multiples", "why_tests_cant": "Tests decrypt what was encrypted.", "anchors": ["src/rsa/mod.rs: decrypt_message, pow_mod"]}
{"id": "C90", "title": "What several ciphertexts of one message disclose", "statement": "Encryption takes no randomness (the seed of OAEP is fixed), so equal messages have equal encodings. One message sent to e recipients with exponent e and coprime moduli of one length: the common solution of the ciphertexts below the product of the moduli is the e-th power of the encoded message, and its root gives the message. One message under two coprime exponents for one modulus: the message follows from the ciphertexts and Bezout coefficients. Encryption is a function of the message and injective.", "quantifier": "all messages, numbers of recipients, exponents and moduli", "why_tests_cant": "The attacks work for all messages and keys.", "anchors": ["src/rsa/mod.rs: encrypt_message", "src/rsa/oaep.rs: encode", "src/rsa/pad.rs"]}
{"id": "C91", "title": "create_keys rejects exponents that do not encrypt", "statement": "False: for all primes the exponent 1 is accepted and encryption under that key returns the message. The same holds for every exponent that is 1 modulo lcm(p-1, q-1). Under every odd exponent the messages 0, 1 and n-1 are encrypted to themselves.", "quantifier": "all primes, exponents and messages", "why_tests_cant": "Tests use one pair of primes and one exponent.", "anchors": ["src/rsa/mod.rs: create_keys, encrypt, pow_mod"]}
{"id": "C92", "title": "MD2 loses nothing of a block", "statement": "The 48 bytes after the mixing of a block determine the block and the 16 bytes of the previous state that are read (the other 32 are not read). The checksum detects every change inside one block, whatever comes before and after.", "quantifier": "all states of the hasher, all blocks, all surrounding data", "why_tests_cant": "There are 2^128 blocks and as many states.", "anchors": ["src/md/md2.rs: Hasher::process_chunk, Hasher::consume"]}
{"id": "C93", "title": "256 blocks that differ in one byte: AES after three rounds", "statement": "For every key and every set of 256 states that take all values in one byte and agree in the others, two rounds later each of the 16 bytes takes all values, and three rounds later the sum (xor) of the values of each byte is zero. Plaintexts that differ in one byte only are such a set in the first round.", "quantifier": "all keys, all rounds, all positions, all values of the other bytes", "why_tests_cant": "The statement is about all 2^120 sets of 256 blocks under all keys.", "anchors": ["src/aes/cipher.rs: Aes::encrypt", "src/aes/sbox.rs"]}
{"id": "C94", "title": "RC5 with no rounds adds a constant", "statement": "RC5::new accepts zero rounds. The two words of the ciphertext are then the words of the block plus two constants, so one block with its ciphertext determines the ciphertext of every other block.", "quantifier": "all keys and blocks", "why_tests_cant": "All keys, all blocks.", "anchors": ["src/rc/rc5.rs: RC5::new, encrypt_32"]}
{"id": "C95", "title": "No linear approximation of the AES S-box is better than 144 of 256", "statement": "For every linear combination of the input bits and every nonzero linear combination of the output bits of the S-box, the two agree for at least 112 and at most 144 of the 256 inputs. In particular no output bit and no sum of output bits is an affine function of the input bits.", "quantifier": "all input masks, all nonzero output masks", "why_tests_cant": "There are 65280 pairs of masks; tests compare single bytes.", "anchors": ["src/aes/sbox.rs: SBOX", "src/aes/field.rs"]}
{"id": "C96", "title": "Number of messages that an RSA key leaves unchanged", "statement": "For distinct primes p and q and every exponent e > 0 there are exactly (1 + gcd(e-1, p-1)) (1 + gcd(e-1, q-1)) numbers below pq that encrypt returns unchanged. These are at least nine if the primes and the exponent are odd. If both gcds are 2, each of them except 0, 1 and n-1 discloses a prime: gcd(m, n), gcd(m-1, n) or gcd(m+1, n).", "quantifier": "all pairs of primes, all exponents, all messages", "why_tests_cant": "The count is over all messages of all keys.", "anchors": ["src/rsa/mod.rs: encrypt, pow_mod"]}
{"id": "C97", "title": "Both exponents of an RSA key disclose its primes", "statement": "For every key returned by create_keys for distinct odd primes and e > 1: repeatedly halving the exponent ed - 1 until a power of the base is a nontrivial square root of one finds p or q for at least half of the units modulo n, and never finds anything else. Hence some base finds a prime of every such key.", "quantifier": "all pairs of distinct odd primes, all exponents, all bases", "why_tests_cant": "The statement counts over all units of all keys.", "anchors": ["src/rsa/mod.rs: create_keys, PrivateKey, PublicKey"]}
{"id": "C98", "title": "One different byte reaches every byte of AES in two rounds and every column in three", "statement": "For every key and two blocks whose states differ in one byte in some round, the states differ in exactly four bytes one round later, in all 16 bytes two rounds later, and in at least one byte of each column three rounds later. So no such pair agrees in a whole column after three rounds (an impossible differential).", "quantifier": "all keys of 16, 24 and 32 bytes, all pairs of blocks, all rounds", "why_tests_cant": "The statement is about all pairs of 128-bit blocks under all keys.", "anchors": ["src/aes/cipher.rs: Aes::encrypt, shift_rows, mix_columns"]}
{"id": "C99", "title": "Sixteen consecutive words of a SHA message schedule determine the block", "statement": "For SHA-1, SHA-256 (SHA-224) and SHA-512 (SHA-384) any 16 consecutive words of the message schedule determine the block. So the words used by the rounds for two different blocks differ in at least 5 of 80, 4 of 64 and 5 of 80 places, with a difference among any 16 consecutive ones. The chunk functions of the code depend on the block through these words only.", "quantifier": "all pairs of blocks, all windows", "why_tests_cant": "There are 2^512 or 2^1024 blocks.", "anchors": ["src/sha/sha1.rs: process_chunk", "src/sha/sha2.rs: process_chunk, process_big_chunk"]}
{"id": "C100", "title": "Every call returns or panics", "statement": "In debug and release builds alike, no loop of the ciphers, hashes, paddings, block modes, big numbers, RSA, OAEP, ASN.1 parser or key import runs for ever, for any input whatsoever (malformed keys, modulus zero, numbers with superfluous zeros included). The only exception is OAEP with a hash function whose output is empty: mgf1 then never returns in a release build and overflows its counter in a debug build. The amount of fuel that the model gives to its loops does not matter.", "quantifier": "all inputs, all keys, both build profiles, all hash functions", "why_tests_cant": "Non-termination is invisible to a test that runs on terminating inputs; the domains are infinite.", "anchors": ["src/rsa/mod.rs: mul_mod, inverse", "src/rsa/mgf.rs: mgf1", "src/big/uint.rs", "src/pem/asn1.rs", "src/rsa/asn1.rs"]}
{"id": "C101", "title": "Successive collisions give exponentially many messages with one digest", "statement": "For SHA-1, SHA-2, MD4 and MD5: if k pairs of blocks collide one after the other in the compression function (of the code; for MD4 and MD5 that of the RFCs, which is what the code computes), all 2^k messages made of one block of each pair have the same digest, with any common continuation. Two of them then also agree under every further function with fewer than 2^k values, so concatenating digests adds little. For MD4 eight such messages are given.", "quantifier": "all chains of colliding blocks, all continuations, all further functions", "why_tests_cant": "The messages are exponentially many and the continuation is arbitrary.", "anchors": ["src/sha/sha1.rs", "src/sha/sha2.rs", "src/md/md4.rs", "src/md/md5.rs"]}
{"id": "C102", "title": "A small private exponent follows from the public key", "statement": "For every key that create_keys makes from odd primes p and q with e below lcm(p-1, q-1), e d > (p-1)(q-1) + 1 and 2 gcd(p-1, q-1) d^2 (p+q) <= p q, the continued fraction of e/n gives p and q (Wiener's attack). The attack never gives a wrong answer. create_keys does not reject such keys: each unit modulo lcm(p-1, q-1) is the private exponent of some accepted public exponent.", "quantifier": "all pairs of odd primes, all exponents", "why_tests_cant": "The primes and exponents are arbitrary.", "anchors": ["src/rsa/mod.rs: create_keys, inverse"]}
{"id": "C103", "title": "Two messages with a known linear relation under the exponent 3", "statement": "If two numbers m1 and m2 with m2 = a m1 + b (mod n) are encrypted with the exponent 3, then m1 satisfies a linear equation whose coefficients are computed from n, a, b and the two ciphertexts; if its factor is prime to n, m1 is the only solution below n.", "quantifier": "all moduli, messages and relations", "why_tests_cant": "All moduli, messages and coefficients.", "anchors": ["src/rsa/mod.rs: encrypt, pow_mod"]}
{"id": "C104", "title": "The ASN.1 parser makes at most one call per two bytes and its result is no larger than its input", "statement": "For every input, accepted, rejected or crashing, in debug and release builds, the parser calls parse_from_bytes at most half as often as the input has bytes, and once more. For an accepted input the calls are exactly the values in the result, and twice their number plus the bytes they hold is at most the length of the input.", "quantifier": "all inputs, both build profiles", "why_tests_cant": "Tests parse a few inputs and do not count.", "anchors": ["src/pem/asn1.rs: parse_from_bytes"]}
{"id": "C105", "title": "Key import checks that the numbers of a key belong together (violated)", "statement": "An imported key consists of distinct primes p and q, n = p q, matching exponents of at least 3 and the CRT values that follow from them (RFC 8017, 3.1 and 3.2). The code violates this: the result depends on the modulus and the private exponent only, and any numbers are accepted. With an imported exponent 1 every ciphertext discloses its message to everyone, with the exponent 0 every message becomes the ciphertext 01, and with a modulus of less than 66 bytes (or zero) every encryption panics.", "quantifier": "all numbers in all fields, all messages, all PEM layouts", "why_tests_cant": "Tests import well-formed keys.", "anchors": ["src/rsa/asn1.rs: PrivateKey::from_asn1, PublicKey::from_asn1", "src/rsa/mod.rs: TryFrom<PEM>"]}
{"id": "C106", "title": "Close primes follow from the modulus", "statement": "For every key that create_keys makes from odd primes q <= p, Fermat's method finds the primes after exactly (p+q)/2 - c + 1 attempts, c being the root of the modulus rounded up, and 8 c ((p+q)/2 - c) is at most (p-q)^2. If (p-q)^2 < 8 c, the first attempt succeeds. Nothing wrong is ever found. create_keys does not check the distance of the primes.", "quantifier": "all pairs of odd primes, all exponents, all numbers of attempts", "why_tests_cant": "The primes are arbitrary.", "anchors": ["src/rsa/mod.rs: create_keys"]}
{"id": "C107", "title": "The first byte of an RC4 key stream discloses key bytes after a known prefix", "statement": "If the beginning of an RC4 key is known and leads to a resolved table (Fluhrer, Mantin and Shamir), and the pointer of the remaining steps of the key scheduling misses three entries, then the next byte of the key is a function of the known bytes and the first byte of the key stream. The prefixes (a+3, 255, x) of a secret with a known bytes are resolved whenever the pointer misses the entries 0 and 1.", "quantifier": "all keys, all prefixes, all lengths", "why_tests_cant": "All keys of up to 256 bytes.", "anchors": ["src/rc/rc4.rs: KeyStream::new, next_key"]}
{"id": "C108", "title": "Encryption in ECB mode gives away what is appended to a chosen text", "statement": "For every block cipher of up to 255 bytes whose decryption inverts its encryption, and every secret: from the ECB ciphertexts of x followed by the secret, for n + 1 + 257 k chosen texts x (n the block size, k the length of the secret), the secret follows byte by byte, its length included. So it does for AES, RC2 and RC5 with every key.", "quantifier": "all ciphers, all keys, all secrets of any length", "why_tests_cant": "The statement is about all secrets and all keys; a test tries one.", "anchors": ["src/lib.rs: EcbMode, BlockEncryption::encrypt", "src/pad.rs"]}
{"id": "C109", "title": "The table lookups of AES disclose the key", "statement": "The indices at which encryption and decryption read the S-box tables are exactly the bytes of the successive states. One known block and the first 32 indices of its encryption determine the key of any size; two keys with the same indices in the decryption of a block are equal. If only the line of 2^k table entries is seen, the upper 8-k bits of each of the first 16 key bytes follow.", "quantifier": "all keys of 16, 24 and 32 bytes, all blocks, all line sizes", "why_tests_cant": "Tests see results, not memory accesses.", "anchors": ["src/aes/cipher.rs: Aes::encrypt, Aes::decrypt, substitute", "src/aes/sbox.rs"]}
{"id": "C110", "title": "Encrypting again and again with the public key decrypts", "statement": "For every key pair with distinct primes there is a positive number of at most lcm(p-1, q-1) encryptions after which every message comes back. Whoever encrypts a ciphertext until it comes back has passed the message just before.", "quantifier": "all keys, all messages", "why_tests_cant": "The number of encryptions is astronomically large for most keys; the keys and messages are arbitrary.", "anchors": ["src/rsa/mod.rs: encrypt, create_keys"]}
{"id": "C111", "title": "Primes p with smooth p - 1 follow from the modulus", "statement": "For every key that create_keys makes from distinct odd primes p and q, if p - 1 divides b! and 2^(b!) is not 1 modulo q, then b small powers and one greatest common divisor give p (Pollard's p - 1 method). create_keys accepts such primes. Whatever the method gives divides the modulus.", "quantifier": "all pairs of distinct odd primes, all bounds", "why_tests_cant": "The primes are arbitrary.", "anchors": ["src/rsa/mod.rs: create_keys"]}
{"id": "C112", "title": "The upper half of the private exponent follows from the public key", "statement": "For every key that create_keys makes from distinct primes p and q, with g = gcd(p-1, q-1) there is a k below e such that d differs from k n / (g e) by at most (p + q) / g (and is at most 1 larger): for small e and g the upper half of d has few candidates.", "quantifier": "all pairs of distinct primes, all exponents", "why_tests_cant": "The primes and exponents are arbitrary.", "anchors": ["src/rsa/mod.rs: create_keys, inverse"]}
{"id": "C113", "title": "The work of an RSA operation is quadratic in the bits and its vectors do not grow", "statement": "For every key, and every message below the modulus of k bytes: encryption and raw decryption make at most 34 comparisons, additions, subtractions and shifts of big numbers for each bit of the exponent and each bit of the modulus, and no vector has more than k + 3 bytes and the bytes by which the allocator rounds up. For a number of s bits more than the modulus there are at most 2 bits(e) (bits(n) + s) (6 s + 17) operations on vectors of at most k + s/8 + 3 bytes and the rounding.", "quantifier": "all keys, all messages, all allocators", "why_tests_cant": "Tests see results, not their cost.", "anchors": ["src/rsa/mod.rs: mul_mod, pow_mod", "src/big/uint.rs: rem_assign, add_assign, sub_assign, shl_assign, shr_assign"]}
{"id": "C114", "title": "One bit of each decrypted number decrypts every ciphertext", "statement": "For every key pair and every message below the modulus: from the ciphertext, the public key and, for each bit of the modulus, whether one number decrypted by the code is odd (for an odd modulus) or whether it is at least half the modulus, the message follows. So a program that uses RsaEncryption::decrypt must not disclose a single bit of what it decrypts.", "quantifier": "all key pairs, all messages", "why_tests_cant": "All keys, messages and sequences of answers.", "anchors": ["src/rsa/mod.rs: RsaEncryption::encrypt, RsaEncryption::decrypt"]}
{"id": "C115", "title": "AES agrees with the equivalent inverse cipher and with the table form", "statement": "For every key and block, decryption is the equivalent inverse cipher of FIPS 197 (section 5.3.5: the order of operations of encryption, InvMixColumns applied to the inner round keys), and encryption is the form with four tables of 256 words (Rijndael proposal, 5.2.1).", "quantifier": "all keys of 16, 24 and 32 bytes, all blocks", "why_tests_cant": "Tests compare a few blocks.", "anchors": ["src/aes/cipher.rs: Aes::encrypt, Aes::decrypt"]}
{"id": "C116", "title": "Only the round keys tell the columns of AES apart", "statement": "With the columns of all round keys rotated, the code encrypts and decrypts blocks with rotated columns to the result with rotated columns, for any round keys and any number of rounds. Round keys with four equal columns would therefore map blocks with four equal columns to such blocks; for every key at least one of the first five round keys does not have four equal columns.", "quantifier": "all round keys, all numbers of rounds, all blocks, all keys", "why_tests_cant": "All keys and blocks.", "anchors": ["src/aes/cipher.rs: Aes::encrypt, Aes::decrypt", "src/aes/expander.rs: expand_key"]}
{"id": "C117", "title": "A change of a block changes the SHA-1 message schedule in the same way for every block", "statement": "The message schedule of SHA-1 is linear: the words that the rounds get for the xor of two blocks are the xor of the words for each of them. So the words changed by a change of the block, their number and their new bits do not depend on the block. For SHA-256 this is false.", "quantifier": "all pairs of blocks, all states", "why_tests_cant": "All pairs of blocks.", "anchors": ["src/sha/sha1.rs: process_chunk"]}
{"id": "C118", "title": "Every ASN.1 value and every key has exactly one accepted encoding (violated)", "statement": "The claim is false for every value: for every accepted input, the same tag and contents with 2^64 other lengths, all different, are accepted as the same value. For every accepted private or public key file there are 2^64 different files accepted as the same key.", "quantifier": "all inputs, all key files, all 2^64 lengths", "why_tests_cant": "All inputs.", "anchors": ["src/pem/asn1.rs: Asn1::parse_from_bytes", "src/rsa/asn1.rs", "src/rsa/mod.rs: TryFrom<PEM>"]}
{"id": "C119", "title": "Text around a PEM value is ignored, and a second value is an error", "statement": "Lines that do not look like BEGIN or END lines, before or after any text, do not change the result, be it a value or an error. Two accepted texts one after the other, with a line break between, are always rejected ('multiple BEGIN lines').", "quantifier": "all texts, all lines around them", "why_tests_cant": "All texts.", "anchors": ["src/pem/mod.rs: extract_pem_pieces, decode_pem"]}
{"id": "C120", "title": "Every permutation is the table of some RC4 key", "statement": "For every permutation of the 256 bytes there are two different keys of 256 bytes for which KeyStream::new gives this table. So the key scheduling reaches all states of the generator with x = y = 0, and is not injective on long keys.", "quantifier": "all permutations of the bytes", "why_tests_cant": "There are 256! of them.", "anchors": ["src/rc/rc4.rs: KeyStream::new"]}
{"id": "C121", "title": "PEM parsing and printing on UTF-8 bytes", "statement": "On the UTF-8 bytes of a text, as a str holds it, PEM parsing (trimming decodes characters from both ends, lines, prefixes and suffixes are compared as bytes) gives the same errors, the same data and the bytes of the same label as on the characters; so does printing. UTF-8 is unambiguous, and the decoding steps of core invert it from both ends.", "quantifier": "all texts of Unicode scalar values", "why_tests_cant": "All texts.", "anchors": ["src/pem/mod.rs: extract_pem_pieces, parse_pem_data, decode_pem, Display for PEM"]}
{"id": "C122", "title": "One wrong bit in the private exponent discloses that bit", "statement": "If one bit of the private exponent is inverted in a decryption, the wrong result and the right one tell what the bit was: it was set exactly if the right result is the wrong one times c^(2^i). As many such faults as the exponent has bits disclose the exponent.", "quantifier": "all keys, all ciphertexts coprime to the modulus, all bit positions with c^(2^(i+1)) other than 1", "why_tests_cant": "All key sizes and positions.", "anchors": ["src/rsa/mod.rs: RsaEncryption::decrypt, pow_mod"]}
{"id": "C123", "title": "Pseudo-collisions of MD5", "statement": "Two states of the MD5 hasher that differ in the top bits of all four words keep this difference through the 64 operations on a block exactly if given pairs of top bits agree on the way; the hasher then takes both to the same state. A block and a state with this path are given, so the compression function is not injective in the state.", "quantifier": "all blocks, all states", "why_tests_cant": "All states and blocks.", "anchors": ["src/md/md5.rs: Hasher::process_block, Block::process"]}
{"id": "C124", "title": "Targets on which usize does not have 64 bits", "statement": "MD4 and MD5 are right for messages of fewer than 2^w bits, w being the width of usize; longer ones (512 MB on a 32-bit target) panic in debug builds and are hashed with the wrong length in release builds. The ASN.1 parser has the same outcome for all w, except that lengths of 2^w and more are cut: an input that is rejected on a 64-bit target can be accepted on a 32-bit target (statement 'the result is the same on all targets' refuted).", "quantifier": "all widths from 10 to 64 bits, all messages and inputs", "why_tests_cant": "Messages of 512 MB, a target that the tests do not run on.", "anchors": ["src/md/md4.rs: Hasher::consume, Hasher::finish", "src/md/md5.rs: Hasher::consume, Hasher::finish", "src/pem/asn1.rs: Asn1::parse_from_bytes"]}
{"id": "C125", "title": "SHA, MD4, MD5 and RC5 do the same for all data of the same length", "statement": "The branches taken, the number of iterations, and the indices and bounds of slices, in SHA-1, SHA-224 to SHA-512, MD4 and MD5, depend on the message only through its length; in the set-up of RC5 on the length of the key and the number of rounds; on a block of RC5 only on the number of rounds, for all keys and data. Operands of arithmetic and rotations are not counted.", "quantifier": "all messages, all keys, all blocks, both build profiles", "why_tests_cant": "Timing of a few runs is not all inputs.", "anchors": ["src/sha/sha1.rs", "src/sha/sha2.rs", "src/sha/pad.rs", "src/md/md4.rs", "src/md/md5.rs", "src/rc/rc5.rs"]}
{"id": "C126", "title": "The accesses of MD2, RC4 and RC2 disclose message and key", "statement": "The branches, iterations and indices determine the whole message in MD2, the whole key (up to 256 bytes) in the key set-up of RC4, and the whole key (2 to 64 bytes) in the key expansion of RC2; for RC2 keys of one byte and of more than 64 bytes this is false. The accesses of RC2 on a block depend on the block.", "quantifier": "all messages of any length, all keys", "why_tests_cant": "All pairs of messages and keys.", "anchors": ["src/md/md2.rs: Hasher::process_chunk", "src/rc/rc4.rs: KeyStream::new", "src/rc/rc2.rs: expand_key, mash"]}
{"id": "C127", "title": "RC2 has 14 different keys of one byte", "statement": "With at least as many effective bits as the key has, keys of the same length of two bytes or more have different schedules. With one byte the top bit never matters below 1024 effective bits, and from 8 to 768 effective bits the 256 keys have exactly 14 schedules, those of the same 14 keys. With fewer effective bits keys of the same length collide.", "quantifier": "all keys of 1 to 128 bytes, all numbers of effective bits", "why_tests_cant": "All pairs of keys.", "anchors": ["src/rc/rc2.rs: expand_key, RC2::from_key"]}
{"id": "C128", "title": "RC4 never enters one of its short cycles", "statement": "A state of the generator whose second index is one ahead of the first, with a 1 in the table there (Finney's condition), is in a cycle of exactly 65280 bytes. The condition holds after a step exactly if it held before, so no key stream made from a key ever meets it, however many bytes are taken.", "quantifier": "all keys, all states, all numbers of bytes", "why_tests_cant": "A stream has no end.", "anchors": ["src/rc/rc4.rs: KeyStream::new, KeyStream::next_key"]}
{"id": "C129", "title": "The private exponents that belong to a public key", "statement": "For distinct primes, two exponents undo each other on all messages exactly if their product is 1 modulo p - 1 and modulo q - 1; the same for encrypt and decrypt of the library. For a key of create_keys the exponents that decrypt everything are the one it returns and those that follow in steps of lcm(p-1, q-1); the returned one is the smallest.", "quantifier": "all pairs of primes, all exponents, all messages", "why_tests_cant": "All primes and exponents.", "anchors": ["src/rsa/mod.rs: create_keys, RsaEncryption::encrypt, RsaEncryption::decrypt"]}
{"id": "C130", "title": "Inverted bits in the stored round keys of AES disclose the key", "statement": "If two bits in each byte of the last but one stored round key are inverted, one at a time, the ciphertexts of one block, which need not be known, give the last round key, and for AES-128 the key. One bit per byte is not enough: always another byte fits.", "quantifier": "all keys of the three sizes, all blocks, all choices of the bits", "why_tests_cant": "2^128 keys and 2^128 blocks.", "anchors": ["src/aes/cipher.rs: Aes::encrypt, struct Aes", "src/aes/expander.rs"]}
{"id": "C131", "title": "No two targets read a key file as different keys", "statement": "On targets where usize has fewer than 64 bits, the import of private and public keys has the same outcome as with 64 bits, unless that is a missing piece of 2^w bytes or more. A target accepts every file that a larger one accepts, as the same key, so no file is read as different keys by two targets. But every key file has a variant that is accepted as the same key by targets with w bits and rejected with 64.", "quantifier": "all files, all widths from 10 to 64 bits", "why_tests_cant": "Targets of other sizes are not tested, and all files.", "anchors": ["src/pem/asn1.rs: Asn1::parse_from_bytes", "src/rsa/mod.rs: TryFrom<PEM>", "src/rsa/asn1.rs"]}
{"id": "C132", "title": "Who can time decrypt_message can decrypt", "statement": "OAEP decoding hashes nothing if the first byte is not zero, and otherwise inputs whose lengths depend only on the lengths of the label and of the encoded message, whichever error or message results. So whether decrypt_message hashes anything tells whether the decrypted number is large, and with at most 4112 such answers for each byte of the modulus every message encrypted for the key can be read, without any error message.", "quantifier": "all hash functions, labels and encoded messages; all key pairs whose modulus does not start with the byte 1, all messages", "why_tests_cant": "The tests look at results, not at what is computed for them.", "anchors": ["src/rsa/oaep.rs: OaepPadding::decode", "src/rsa/mgf.rs: mgf1", "src/rsa/mod.rs: RsaEncryption::decrypt_message"]}
{"id": "C133", "title": "The second byte of RC4 is too often zero", "statement": "If a key leads to a table with 0 at position 2, the second byte of its key stream is 0 except if there is 2 at position 1 and not 255 at position 4; the second byte of the message is then sent as it is. Of all 256! tables, at least 1.95 of 256 have the second byte 0, where one of 256 would be fair. At every step, if the output comes from one of the two exchanged entries of the table, it discloses the other one.", "quantifier": "all keys, all tables, all states and steps", "why_tests_cant": "The bias is a count over 256! tables.", "anchors": ["src/rc/rc4.rs: KeyStream::next_key", "src/rc/rc4.rs: KeyStream::new", "src/rc/rc4.rs: KeyStream::encrypt"]}
{"id": "C134", "title": "How many blocks the paddings accept", "statement": "For blocks of n bytes, PKCS unpadding accepts (n + 1) * 256^(n-1) blocks and bit unpadding 256^n - 255^n, where each padding can only produce (256^n - 1) / 255: for 16 bytes more than 16 and 15 times as many as are genuine. With any invertible block cipher, n + 1 of 256 ciphertexts of each whole number of blocks are decrypted without an error in ECB mode, with AES 17 of 256 for every key.", "quantifier": "all block sizes, all invertible ciphers, all AES keys, all numbers of blocks", "why_tests_cant": "The numbers count all blocks and all ciphertexts.", "anchors": ["src/pad.rs: PkcsPadding::unpad", "src/pad.rs: BitPadding::unpad", "src/lib.rs: BlockEncryption::decrypt"]}
{"id": "C135", "title": "How many strings OAEP accepts and how many it makes", "statement": "Of the strings of k bytes, OAEP decoding with a hash of h bytes accepts 256^h * (256^(k-2h-1) - 1) / 255: one for each seed and each message that fits, all of them different. Encoding makes one for each message only, as its seed is fixed: with SHA-256 one of 2^256 accepted strings. With a matching key pair, decrypt_message decrypts exactly as many of the ciphertexts that are below the modulus and as long as it. For a modulus of 128 bytes less than one string in 2^271 is accepted.", "quantifier": "all hash functions, labels and lengths within the limits of hash and counter; all key pairs", "why_tests_cant": "The numbers count all strings.", "anchors": ["src/rsa/oaep.rs: OaepPadding::decode", "src/rsa/oaep.rs: OaepPadding::encode", "src/rsa/mod.rs: RsaEncryption::decrypt_message"]}
