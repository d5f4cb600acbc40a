# Formal model of Martomate/cryptography

## Layout (rocq/theories)

* `Base.v`      Rust semantics used by every model file: the `res` monad
                (`Ok` or `Panic`), array indexing/updating that panics when out
                of bounds, slices, `chunks_exact`, fixed-width wrapping
                arithmetic, rotations, endian conversions, loops.
* `Model*.v`    the code, function by function, each definition citing file and
                lines. No proofs.
* `Spec*.v`     independent specifications (FIPS 197, FIPS 180-4, RFC 1319/1320/
                1321, RFC 2268, RFC 8017, Rivest's RC5 and RC4, BER grammar,
                PEM/base64, plain numbers for BigUint). Of `Model*` they use
                only types; exceptions are definitions about the functions
                themselves, such as an oracle that an attacker asks
                (`SpecBlock`, `SpecFixed`, `SpecKey`, `SpecMd2Chain`, `SpecParity`).
* `Proof*.v`    lemmas.
* `Prop*.v`     one theorem per property, closed by `exact`, with the example
                that its hypotheses are met and `Print Assumptions`.
* `Replay.v`    the repository's own tests, run on the model.

## Conventions

* A byte/word is an `N`; `bytes l` says all elements are below 256. An array or
  `Vec` is a `list`, its length a `nat`.
* Every operation that can panic in Rust is in the `res` monad: indexing,
  slicing, `copy_from_slice` with unequal lengths, `unwrap`, explicit `panic!`,
  division by zero, and arithmetic overflow of `+ - *`. `usize` is 64 bits
  (other widths: C124, C131).
* Overflow depends on the compiler profile. The model takes it as an implicit
  argument `P : profile`: with `debug` an overflow is `Panic POverflow`, with
  `release` the result is reduced to the width of the type. A statement that does
  not name a profile is about `debug` (an instance declared in `BaseLemmas.v`);
  `@f release` is the same function without checks. C72 says that the two agree
  unless `debug` gives `Panic POverflow`, so that a theorem that concludes `Ok v`
  holds for both; C73 and C74 say what happens in the other cases.
* `&mut self` methods return the new value. `FnMut(u8)` callbacks become the
  list of emitted bytes, kept also when the call panics.
* `while` loops run on fuel; running out gives `Panic PFuel`, which the
  theorems exclude since they conclude `Ok`. C100 says that it never happens.

## What is modelled

Every function of `/repo/src` outside `#[cfg(test)]` has a definition in
`Model*.v` citing its file and lines:

| model | code | properties |
|-------|------|------------|
| `ModelPad`   | src/pad.rs | C01-C06, C134 |
| `ModelBlock` | src/lib.rs (`BlockEncryption`, `EcbMode`, `StreamCipher`); ciphers and modes are arbitrary functions that may panic | C07-C11, C70, C77, C78, C86, C108 |
| `ModelAes`   | src/aes/{field,sbox,expander,cipher,mod}.rs | C12-C17, C79, C87, C93, C95, C98, C115, C116, C130 |
| `ModelRc`    | src/rc/{rc2,rc4,rc5}.rs | C18-C25, C33, C78-C80, C94, C107, C120, C127, C128, C133 |
| `ModelMd`    | src/md/{md2,md4,md5}.rs | C26-C28, C33, C75, C76, C88, C92, C101, C123 |
| `ModelSha`   | src/sha/{hash,pad,sha1,sha2}.rs | C29-C36, C75, C76, C88, C99, C101, C117 |
| `ModelBig`   | src/big/uint.rs | C37-C45, C84 |
| `ModelRsa`   | src/rsa/{mgf,oaep,pad,mod}.rs | C46-C56, C66, C78, C89-C91, C96, C97, C102, C103, C106, C110-C112, C114, C122, C129, C135 |
| `ModelPem`   | src/pem/{asn1,mod}.rs | C57-C63, C67, C68, C82, C118, C119 |
| `ModelCost`  | src/rsa/mod.rs `mul_mod`, `pow_mod` again, with the sequence of operations (equal to `ModelRsa` when it is erased) | C81 |
| `ModelLookup` | src/aes/cipher.rs `encrypt`, `decrypt` again, with the indices of the table lookups (equal to `ModelAes` when they are erased) | C109 |
| `ModelCalls` | src/pem/asn1.rs `parse_from_bytes` again, with the number of its calls (equal to `ModelPem` when it is erased) | C104 |
| `ModelOracle` | src/rsa/mod.rs `decrypt_message` before its `unwrap` (equal to `ModelRsa` when that is added) | C83 |
| `ModelUtf8`  | src/pem/mod.rs once more, on the UTF-8 bytes of a `str` | C121 |
| `ModelKey`   | src/rsa/asn1.rs, the `TryFrom<PEM>` of src/rsa/mod.rs | C64, C65, C69, C71, C105, C118 |
| `ModelMessage` | the texts of the errors and the derived `Debug` output | C85 |
| `ModelWork` | src/big/uint.rs (`rem_assign`) and src/rsa/mod.rs (`mul_mod`, `pow_mod`) with the longest vector of each comparison, addition, subtraction and shift | C113 |
| `ModelWidth` | src/md/{md4,md5}.rs (the hasher) and src/pem/asn1.rs once more, with the width of `usize` as a parameter (equal to `ModelMd` and `ModelPem` for 64 bits) | C124 |
| `ModelWidthKey` | src/rsa/asn1.rs (`PrivateKeyInfo`, `SubjectPublicKeyInfo`) and the imports of src/rsa/mod.rs once more, on `ModelWidth` | C131 |
| `ModelHashed` | src/rsa/mgf.rs, src/rsa/oaep.rs `decode` and src/rsa/mod.rs `decrypt_message` once more, with the lengths of all hashed inputs (equal to `ModelRsa` without them) | C132 |
| `ModelTrace` | src/sha, src/md, src/rc once more, recording branches, iterations, indices and slice bounds (not the operands of arithmetic and rotations, nor where a `Vec` puts what is appended); the results are those of `ModelSha`, `ModelMd`, `ModelRc` | C125, C126 |

Specifications and proof ideas:

| id | specification | proof |
|----|---------------|-------|
| C01-C06 | `SpecPad` | list lemmas; C04/C05 also refutation witnesses |
| C07-C11, C70 | `SpecBlock` (CBC written out as a mode) | induction over the block list, over the data |
| C12, C13 | `SpecAes`: polynomials over GF(2) as bit lists, inverse and affine map of FIPS 197 | the product is linear in each argument, checked on the basis; the table walk is checked for all 256 bytes (`forallb_forall`) |
| C14-C17 | `SpecAes`: FIPS 197 on functions | loop invariants; inverse of each step |
| C18-C25 | `SpecRc`: RFC 2268, RC4, RC5 as recurrences | loop invariants, inversion round by round |
| C26-C28 | `SpecMd`: RFC 1319/1320/1321, table driven | the byte-at-a-time hasher refines padding followed by a fold over blocks |
| C29-C32 | `SpecSha`: FIPS 180-4 | same |
| C33 | `SpecConst`: fractional bits of roots of primes, sines, pi, e, golden ratio as Coq reals | integer root bounds; alternating series and angle addition with interval bounds; Machin's formula |
| C34-C36 | `SpecHex`, `SpecEndian` | |
| C37-C45 | `SpecBig`: plain numbers | every loop refined to arithmetic on `N` |
| C46-C49 | `SpecRsa` | Bezout invariant with bounds; Fermat (mathcomp `fermat_little`) and CRT |
| C50-C56, C66 | `SpecOaep`, `SpecMsg` | generic in the hash; C56 with a concrete key whose primality is proved (Proth certificates in `ProofPrime`) |
| C57-C60 | `SpecAsn1`: inductive grammar, DER encoder | soundness and completeness by induction on the length |
| C61-C63, C67, C68 | `SpecPem`: grammar of lines, base64 as regrouped bits | |
| C64, C65, C69, C71 | `SpecKey` | composition with the above |
| C72-C74 | `SpecRelease` | relation between the two profiles, one lemma per function; wrapped Bezout coefficients modulo 2^128 |
| C75, C76 | `SpecMerkle`: collisions among the steps of a fold, the padding as a suffix | induction from the last block backwards; the fold over blocks splits at the padding |
| C77 | `SpecLazy`: a number of calls of `next` | induction over the calls |
| C78 | `SpecMalleable` | C11, C07, C46 applied to the altered ciphertext |
| C79, C80 | `SpecKeys` | the RC2 expansion downwards is a bijection; RC4 reads the key modulo its length; each AES round key word is invertible; pigeonhole on the states of RC4 |
| C81, C82 | `SpecCost`: the bits of a number as operations, depth of a value | induction over the loop, over the grammar |
| C83 | `SpecManger`: the attack as a function of an oracle | invariant j n <= f m < j n + B, where f doubles |
| C84 | `SpecSpoiled`: zero as most significant byte | the lemmas of C37-C45 without the canonical form |
| C86 | `SpecPadOracle`: the bytes that fit the answers | C09; {0..n} is not fixed by xor with d <> 0 if n is even |
| C87 | `SpecTrail`: states at the S-boxes, bytes that differ | C12, C13, C15; all minors of the MixColumns matrix are nonzero, counting of active columns; the S-box bound by scaling differences to 1 |
| C88 | `SpecFixed`: the value that a block adds to the state | every round inverted; folds of invertible steps; C26-C32 |
| C89-C91 | `SpecBroadcast`: residues for several moduli | C46, C56; uniqueness in the Chinese remainder theorem; Bezout; Fermat |
| C92 | `SpecMd2Chain` | each pass of the mixing inverted from the last byte; the table is a permutation |
| C93 | `SpecIntegral`: 256 states, sums of bytes | bytes that are constant or take all values, through each step of a round |
| C94 | `SpecWeak` | C23 for no rounds |
| C95 | `SpecLinear`: agreements of two linear forms | sweep over all masks; the affine part moved to the other mask |
| C96 | `SpecUnconcealed`: fixed points of a power | a polynomial has at most as many roots as its degree; Chinese remainder theorem |
| C98 | `SpecTrail` | the patterns of C87, from one different byte |
| C99 | `SpecSchedule`: places where two schedules differ | the recurrence solved for its oldest word |
| C97 | `SpecFactor`: the search for a square root of one | Fermat; the units at which it fails form a subset that a fixed factor maps out of itself |
| C100 | none: `Panic PFuel` is never the result | measures of the loops; for `mgf1` the counter |
| C101 | `SpecMulti`: chains of colliding blocks, the messages they give | the hashers are folds over blocks (C75); pigeonhole |
| C102 | `SpecWiener`: convergents, the quadratic equation | Legendre's theorem on good approximations |
| C103 | `SpecRelated`: coefficients of the equation | a polynomial identity modulo n |
| C104 | `SpecCalls`: number of values, bytes held | induction over the fuel, over the grammar |
| C105 | `SpecImport`: numbers of a key that belong together | C64, C65 with C54 |
| C106 | `SpecFermat`: Fermat's method | a product of two primes is a difference of squares in two ways only |
| C107 | `SpecFms`: the first steps of the key scheduling, the attack | entries before the step that the pointer misses stay |
| C108 | `SpecEcb`: the attack from the answers to chosen texts | a block under attack is the block of one guess only, as encryption is injective |
| C109 | `SpecLookup`: the successive states; the key from the lookups | the traced model; the first two round keys give every key |
| C110 | `SpecCycle`: repeated application | e is a unit modulo lcm(p-1, q-1); a power of it is 1 |
| C111 | `SpecSmooth`: Pollard's p - 1 method | Fermat's little theorem modulo p, not modulo q |
| C112 | `SpecRsa` | e d = 1 + k lcm(p-1, q-1) with k < e |
| C113 | the lengths of lists and the number of entries of the trace; erasing the trace gives the functions of `ModelRsa` (`c113_erase_*`) | the size of the accumulator in each step of `mul_mod` and `rem_assign` |
| C114 | `SpecParity`: the attack, with the answers of the model | the answers are the binary digits of m / n |
| C115 | `SpecAesForms`: figure 15 of FIPS 197, and the tables | InvMixColumns is linear; InvSubBytes and InvShiftRows commute |
| C116 | `SpecSymmetry` | every step commutes with the rotation; the round constants in the key expansion do not |
| C117 | `SpecSha`, `SpecSchedule` | rotations and big-endian words are linear |
| C118 | `SpecReencode`: the other lengths | lengths are taken modulo 2^64 from up to 16 digits |
| C119 | `SpecPem` | the loop over the lines, in parts |
| C120 | permutations of 0..255 | the exchanges are undone from the last to the first |
| C121 | `SpecUtf8`: RFC 3629 | bytes of characters that are not ASCII are not ASCII |
| C122 | `SpecFault`: the comparison of two results | an inverted bit multiplies by c^(2^i) or divides by it |
| C123 | `SpecPseudo`: den Boer and Bosselaers' conditions on the top bits | per operation, then over the 64; feed-forward cancels |
| C124 | `SpecWidth`: the padding with w bits of the length; `SpecMd`, `SpecAsn1` | the hasher with w bits of its counter follows the one with 64; induction over the parser |
| C125 | equality of the recorded events for inputs of the same length | a relation 'same shape' kept by every operation |
| C126 | injectivity of the recorded events | induction: from the same state the next index is different unless the next byte of the input is the same |
| C127 | equality of schedules; the number 14 by a list of representatives | backwards through the expansion; one byte: iteration of a map on 256 values, whose cycles have 14 elements |
| C128 | `SpecFinney`: Finney's condition | invariant in both directions; 255 steps shift the table by one place |
| C129 | RFC 8017's condition on the exponents (`SpecRsa`) | the number of messages that a pair of exponents leaves unchanged (C96) |
| C130 | `SpecKeyFault`: the search for the byte that fits; the key schedule backwards | two differences of the S-box determine its input (sweep over 28 pairs of bits); the rest of the state is the same |
| C131 | `SpecWidthKey`: rejected because of a length of more than w bits; the length plus 2^w | induction over the parser with two widths: a length that fits the file is not changed by either |
| C132 | `SpecHashed`: the lengths of the hashed inputs; `SpecManger` | the first hash is that of the label, after the test of the first byte; then as C83 |
| C133 | `SpecMantin`: 0 at position 2 and not 2 at position 1; lists of all tables and of those with second byte 0 | injections that exchange two values of a table bound each set of exceptions by 1/254 of all tables; no factorial is needed |
| C134 | `SpecAccept`: a list without repetitions of exactly the values with a property | products, disjoint unions and images of such lists; the block size by induction |
| C135 | `SpecAccept`, `SpecOaep`, `SpecMsg` | by C53 the accepted strings are the encodings; two seeds with one encoding are the same as the masks of the seed are; RSA permutes the numbers below the modulus |
| C85 | `SpecMessage`: decimal numerals | texts are split at their delimiters |

## Simplifications and unmodelled behaviour

* Timing, memory behaviour, allocation failure, stack overflow on deeply nested
  ASN.1.
* Error strings are constructors of an error type; `ModelMessage` has their
  wording, and the derived `Debug` output. The text of base64 errors is not
  modelled (`BadBase64`), nor are panic messages other than that of `unwrap` in
  `decrypt_message`.
* Strings are lists of Unicode scalar values. `str::trim`, `lines`, `strip_prefix`,
  `strip_suffix` are modelled by their documentation. `ModelUtf8` has PEM parsing on
  the UTF-8 bytes, with the decoding functions of `core`; it agrees (C121).
* The crates `base64` (`STANDARD` engine), `hex` (`FromHex for Vec<u8>`) and
  `gcd` are modelled by their documented behaviour.
* `Vec::with_capacity(k).capacity()`, read by `SubAssign`, is an arbitrary
  function `capf` with `k <= capf k`.
* In release builds an underflowing length can be requested: subtraction of a number
  longer than the capacity (`sub_assign`), OAEP decoding with a length argument below
  N+1 (not from `decrypt_message`, whose slices fail first). The real program runs out
  of memory there; the model of `release` makes no claim, and the theorems of C73 and
  C74 do not cover these cases.
* `const` tables computed at compile time are the result of the modelled
  computation.
* `usize` values that are lengths or indices are `nat`: they cannot overflow for
  data that fits in memory. Lengths computed from input (ASN.1) are `N` with the
  64-bit truncation modelled.
* Generic lifetimes. The iterator that `StreamCipher::encrypt` returns is a state
  and a step function (`sc_next`, C77); `sc_encrypt` is the same consumed to the
  end.
* Code under `#[cfg(test)]` is not modelled. Its tests and those of `/repo/tests`
  are run on the model in `Replay.v`, as a check of the reading of the code (all
  but the two named there, for their running time).

## Trusted base

* Coq 8.16.1: kernel including its virtual machine (`vm_compute`).
* The reading of the Rust source into `Model*.v`, the models of the external
  crates, and `Base.v` for the language and its standard library.
* The reading of the published documents into `Spec*.v`.
* Assumptions: `Print Assumptions` after each theorem in `Prop*.v` says "Closed
  under the global context" for every theorem except those of C33, which are
  about real numbers and use these axioms of Coq's standard library:

  | theorem | axioms |
  |---------|--------|
  | `c33_sha256_initial`, `c33_sha512_initial`, `c33_sha384_initial`, `c33_sha224_initial`, `c33_sha1`, `c33_md4`, `c33_rc5_p`, `c33_rc5_q` | `ClassicalDedekindReals.sig_not_dec`, `ClassicalDedekindReals.sig_forall_dec`, `FunctionalExtensionality.functional_extensionality_dep` |
  | `c33_sha256_rounds`, `c33_sha512_rounds`, `c33_md5`, `c33_pi` | the same and `Classical_Prop.classic` |
  | `c33_unique` | `ClassicalDedekindReals.sig_forall_dec`, `FunctionalExtensionality.functional_extensionality_dep` |

  No axiom is declared in this development. (`coqchk` also lists axioms of
  mathcomp's `ssrunder` plugin file because the library is loaded; no theorem
  depends on them.)

## Findings

Behaviour of the code that a user may not expect, each with a theorem:

* PKCS unpadding looks at the last byte only: malformed padding and the pad byte
  0 are accepted (C04, C10), and of random ciphertexts n + 1 of 256 decrypt without an
  error, with AES 17 of 256 (C134). With blocks above 255 bytes padding cannot be undone
  (C05).
* Bit unpadding panics when there is no 0x80 byte (C06) and accepts all other blocks,
  whatever follows that byte: 15 times as many as are genuine for 16 bytes (C134).
* RC5 panics on an empty key, which RC5 allows (C25). RC4 panics on an empty key
  (C21). RC2 panics exactly outside its domain (C18).
* `Hash384`/`Hash512` to words always panics (chunks of 4 bytes, C35).
* BigUint: `<<` on zero and clearing the top bit leave non-canonical numbers, on
  which most operations panic (C45); subtraction below zero gives garbage or a
  panic (C39); modulus zero is not rejected (C41).
* `inverse` overflows for moduli from 2^127 on, except for the inverses 1 and
  n - 1 (C47). In release builds it is right for all moduli, but `create_keys`
  silently makes keys that do not decrypt if p * q is 2^128 or more (C73). `create_keys` accepts equal
  primes and composites, for which decryption does not invert (C49).
* `create_keys` keys have at most 16 bytes and are too short for `RsaPadding`
  (C66).
* The OAEP seed is the constant 42: encryption is deterministic and all messages
  are masked with the same bytes (C52). OAEP decoding panics instead of failing
  on short inputs (C53).
* `encrypt_message` drops leading zero bytes of the ciphertext; `decrypt_message`
  then panics (C56).
* ASN.1: panics on lengths of more than 16 bytes, truncated long lengths and
  empty BIT STRINGs (C59); lengths are taken modulo 2^64 (C60); 0x80 is read as
  length zero, NULL may have contents (C57); INTEGERs are read unsigned (C64). Every
  value and every key file has 2^64 accepted encodings and more (C118).
  Key import panics on the same inputs (C65).
* MD4, MD5 and SHA-1 have known collisions (C75); all hashes of the crate but
  SHA-224, SHA-384 and MD2 allow length extension (C76). ECB, stream cipher and
  unpadded `RsaEncryption` ciphertexts can be altered predictably (C78).
* Keys that give the same cipher: RC2 with t effective bits has exactly 2^t
  schedules however long the key is; RC4 keys that are repetitions of each other,
  or agree in the first 256 bytes; RC5 keys that differ in zeros at the end (C79).
  The second byte of RC4 is 0 for the tables of the known bias (C80).
* `pow_mod` multiplies exactly where the exponent has a one: the sequence of
  modular operations is the private exponent, and their number depends on it (C81).
* `decrypt_message` panics with the error of the OAEP decoder. Whoever sees these
  messages can decrypt every ciphertext (Manger's attack, C83); so can
  who only learns whether anything was hashed (C132).
* The ASN.1 parser has no limit on nesting: the depth of its recursion grows
  linearly with the input (C82; the stack itself is not modelled).
* The error for a private key whose contents are not a sequence prints the contents,
  for instance a whole private key that was wrapped once too often; `Debug` of
  `PrivateKey` prints the private exponent (C85).
* `BlockEncryption::decrypt` panics on a pad byte above the block size. Whoever sees
  this learns the last byte of every block, in ECB partly, in CBC (a mode that users
  have to supply) completely, and nothing else (C86).
* `decrypt_message` does not compare the ciphertext with the modulus (C89). A message
  sent to e keys with the exponent e can be read without any private key, as OAEP is
  not randomised (C90). `create_keys` accepts the exponent 1, which encrypts nothing
  (C91). Exactly (1 + gcd(e-1, p-1)) (1 + gcd(e-1, q-1)) messages are encrypted to
  themselves, which can be a large part of all (C96).
* A private exponent discloses the primes: half of all bases split the modulus (C97).
  Keys with a common modulus are therefore not independent.
* `create_keys` accepts keys whose private exponent is so small that it follows from
  the public key (C102). Unpadded messages with a known linear relation
  can be computed from their ciphertexts if e is 3 (C103). Primes that are too close
  are accepted, too, and follow from the modulus (C106), and so are primes p with
  smooth p - 1 (C111). The upper half of the private exponent follows from a public key
  with a small exponent up to a few candidates (C112). Whoever learns one bit of each
  unpadded decryption, its parity, can decrypt every ciphertext (C114). A result computed with one wrong bit
  of the exponent discloses the bit (C122).
* Key import accepts any numbers: only the modulus and one exponent are used, the
  primes and the other fields are ignored. A key file with the exponent 1 leaves every
  message readable (C105).
* RC4 keys made of a public prefix and a secret disclose the secret for certain
  prefixes (C107); nothing in src/rc/rc4.rs discards the first bytes of the stream.
* On 32-bit targets MD4 and MD5 fail for messages of 512 MB and more: a panic in debug
  builds, a wrong digest in release builds. There, the ASN.1 parser takes a length of
  2^32 + n for n (C124).
* The recorded accesses of MD2 determine the message, those of the key set-up of RC4
  and RC2 the key (C126); SHA, MD4, MD5 and RC5 have no such accesses (C125).
* The 256 keys of one byte of RC2 have only 14 schedules when the effective bits are
  8 to 768, and the top bit of such a key never matters below 1024 (C127).
* RC4 has cycles of 65280 bytes, but no key leads into them (C128). The second byte
  of its key stream is 0 for almost twice as many tables as it should be (C133). The exponent that
  `create_keys` returns is the smallest that decrypts (C129).
* Nothing checks the stored round keys of AES: 32 single inverted bits in the last but one
  disclose a key of 128 bits (C130).
- Every key file has a variant that 16 or 32-bit targets accept and 64-bit targets reject. No file
  is read as different keys by two targets (C131).
* ECB mode, the only one in the library, gives away what follows a chosen text (C108).
* AES reads its tables at places that depend on the key: the first 32 lookups for a known
  block are the key (C109).
* Eight messages with one MD4 digest are given (C101), and two states of MD5 that a block
  takes to the same state (C123).
* `RC5::new` accepts zero rounds, which only adds two words to each block (C94).
* With a hash function whose output is empty `mgf1` never returns in a release build
  (C100); every other call returns or panics.
* PEM: a label containing a line feed cannot be read back (C61); a file with two values is rejected (C119).

## Testing the theorems with seeded bugs

`seeded/LOG.jsonl` records each attempt: one edit of a model definition in a
scratch copy, the proofs repaired with `Admitted` wherever they fail, and the
theorems of `Prop*.v` that then depend on an admitted lemma ("failed"). A claim
that should be false but has no failing theorem is a weak theorem and was
tightened.
