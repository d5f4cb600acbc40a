{
 "claims": [
  {
   "property": "C01",
   "status": "proved",
   "theorems": [
    "c01_pkcs_roundtrip"
   ],
   "note": ""
  },
  {
   "property": "C02",
   "status": "proved",
   "theorems": [
    "c02_pkcs_pad_exact",
    "c02_pkcs_pad_is_pkcs7"
   ],
   "note": ""
  },
  {
   "property": "C03",
   "status": "proved",
   "theorems": [
    "c03_pkcs_unpad_exact",
    "c03_pkcs_unpad_last_only"
   ],
   "note": ""
  },
  {
   "property": "C04",
   "status": "proved",
   "theorems": [
    "c04_pkcs_unpad_accepts",
    "c04_pkcs_genuine_iff",
    "c04_pkcs_unpad_rejects_malformed_refuted",
    "c04_pkcs_unpad_inconsistent_refuted"
   ],
   "note": "The claimed behaviour is violated by the code: the _refuted theorem(s) exhibit a witness, the other theorems say exactly what happens."
  },
  {
   "property": "C05",
   "status": "proved",
   "theorems": [
    "c05_pkcs_large_blocks",
    "c05_pkcs_roundtrip_iff",
    "c05_pkcs_roundtrip_all_sizes_refuted"
   ],
   "note": "The claimed behaviour is violated by the code: the _refuted theorem(s) exhibit a witness, the other theorems say exactly what happens."
  },
  {
   "property": "C06",
   "status": "proved",
   "theorems": [
    "c06_bit_pad_exact",
    "c06_bit_unpad_exact",
    "c06_bit_unpad_panics",
    "c06_bit_roundtrip"
   ],
   "note": ""
  },
  {
   "property": "C07",
   "status": "proved",
   "theorems": [
    "c07_encrypt_exact",
    "c07_blocks_exist",
    "c07_blocks_unique",
    "c07_encrypt_length",
    "c07_encrypt_total"
   ],
   "note": ""
  },
  {
   "property": "C08",
   "status": "proved",
   "theorems": [
    "c08_roundtrip",
    "c08_roundtrip_ecb",
    "c08_roundtrip_cbc"
   ],
   "note": ""
  },
  {
   "property": "C09",
   "status": "proved",
   "theorems": [
    "c09_decrypt_bad_length",
    "c09_decrypt_exact"
   ],
   "note": ""
  },
  {
   "property": "C10",
   "status": "proved",
   "theorems": [
    "c10_malleable",
    "c10_decrypt_accepts_only_ciphertexts_refuted"
   ],
   "note": "The claimed behaviour is violated by the code: the _refuted theorem(s) exhibit a witness, the other theorems say exactly what happens."
  },
  {
   "property": "C11",
   "status": "proved",
   "theorems": [
    "c11_stream_xor",
    "c11_stream_ok_iff",
    "c11_stream_split",
    "c11_stream_involution"
   ],
   "note": ""
  },
  {
   "property": "C12",
   "status": "proved",
   "theorems": [
    "c12_field_mul",
    "c12_mul2",
    "c12_mul3",
    "c12_div3",
    "c12_generator_walk",
    "c12_field_laws"
   ],
   "note": ""
  },
  {
   "property": "C13",
   "status": "proved",
   "theorems": [
    "c13_sbox_forward",
    "c13_sbox_backward",
    "c13_sbox_inverse",
    "c13_field_inverse"
   ],
   "note": ""
  },
  {
   "property": "C14",
   "status": "proved",
   "theorems": [
    "c14_key_expansion"
   ],
   "note": ""
  },
  {
   "property": "C15",
   "status": "proved",
   "theorems": [
    "c15_encrypt_conforms"
   ],
   "note": ""
  },
  {
   "property": "C16",
   "status": "proved",
   "theorems": [
    "c16_inverse",
    "c16_standard_inverse",
    "c16_aes_ecb_roundtrip",
    "c16_aes_cbc_roundtrip"
   ],
   "note": ""
  },
  {
   "property": "C17",
   "status": "proved",
   "theorems": [
    "c17_key_integers",
    "c17_key_bytes"
   ],
   "note": ""
  },
  {
   "property": "C18",
   "status": "proved",
   "theorems": [
    "c18_rc2_key_setup",
    "c18_rc2_key_setup_panics",
    "c18_pitable",
    "c18_pitable_permutation"
   ],
   "note": ""
  },
  {
   "property": "C19",
   "status": "proved",
   "theorems": [
    "c19_rc2_encrypt",
    "c19_rc2_from_key"
   ],
   "note": ""
  },
  {
   "property": "C20",
   "status": "proved",
   "theorems": [
    "c20_rc2_inverse",
    "c20_rc2_ecb_roundtrip"
   ],
   "note": ""
  },
  {
   "property": "C21",
   "status": "proved",
   "theorems": [
    "c21_rc4_stream",
    "c21_rc4_stream_length",
    "c21_rc4_empty_key"
   ],
   "note": ""
  },
  {
   "property": "C22",
   "status": "proved",
   "theorems": [
    "c22_rc4_encrypt",
    "c22_rc4_roundtrip",
    "c22_rc4_pieces"
   ],
   "note": ""
  },
  {
   "property": "C23",
   "status": "proved",
   "theorems": [
    "c23_rc5_conforms"
   ],
   "note": ""
  },
  {
   "property": "C24",
   "status": "proved",
   "theorems": [
    "c24_rc5_inverse",
    "c24_rc5_ecb_roundtrip"
   ],
   "note": ""
  },
  {
   "property": "C25",
   "status": "proved",
   "theorems": [
    "c25_rc5_key_domain",
    "c25_rc5_panics",
    "c25_rc5_empty_key_refuted"
   ],
   "note": "The claimed behaviour is violated by the code: the _refuted theorem(s) exhibit a witness, the other theorems say exactly what happens."
  },
  {
   "property": "C26",
   "status": "proved",
   "theorems": [
    "c26_md2_conforms"
   ],
   "note": ""
  },
  {
   "property": "C27",
   "status": "proved",
   "theorems": [
    "c27_md4_conforms",
    "c27_md4_long",
    "c27_md4_digest"
   ],
   "note": ""
  },
  {
   "property": "C28",
   "status": "proved",
   "theorems": [
    "c28_md5_conforms",
    "c28_md5_long",
    "c28_md5_digest"
   ],
   "note": ""
  },
  {
   "property": "C29",
   "status": "proved",
   "theorems": [
    "c29_sha_blocks",
    "c29_sha_big_blocks",
    "c29_sha_pad_injective",
    "c29_sha_big_pad_injective",
    "c29_sha_pad_minimal"
   ],
   "note": ""
  },
  {
   "property": "C30",
   "status": "proved",
   "theorems": [
    "c30_sha1_conforms",
    "c30_sha1_long"
   ],
   "note": ""
  },
  {
   "property": "C31",
   "status": "proved",
   "theorems": [
    "c31_sha224_conforms",
    "c31_sha256_conforms",
    "c31_sha224_long",
    "c31_sha256_long"
   ],
   "note": ""
  },
  {
   "property": "C32",
   "status": "proved",
   "theorems": [
    "c32_sha384_conforms",
    "c32_sha512_conforms"
   ],
   "note": ""
  },
  {
   "property": "C33",
   "status": "proved",
   "theorems": [
    "c33_sha256_rounds",
    "c33_sha512_rounds",
    "c33_sha256_initial",
    "c33_sha512_initial",
    "c33_sha384_initial",
    "c33_sha224_initial",
    "c33_sha1",
    "c33_md4",
    "c33_md5",
    "c33_pi",
    "c33_md2_table",
    "c33_rc5_p",
    "c33_rc5_q",
    "c33_unique"
   ],
   "note": ""
  },
  {
   "property": "C34",
   "status": "proved",
   "theorems": [
    "c34_words_roundtrip",
    "c34_bytes_roundtrip",
    "c34_words64_to_bytes",
    "c34_sha1_digest",
    "c34_sha224_digest",
    "c34_sha256_digest",
    "c34_sha384_digest",
    "c34_sha512_digest"
   ],
   "note": ""
  },
  {
   "property": "C35",
   "status": "proved",
   "theorems": [
    "c35_hash384_words_panic",
    "c35_hash512_words_panic",
    "c35_words_roundtrip_refuted"
   ],
   "note": "The claimed behaviour is violated by the code: the _refuted theorem(s) exhibit a witness, the other theorems say exactly what happens."
  },
  {
   "property": "C36",
   "status": "proved",
   "theorems": [
    "c36_from_hex",
    "c36_from_hex_total",
    "c36_from_hex_print",
    "c36_odd_length",
    "c36_bad_character",
    "c36_bad_length"
   ],
   "note": ""
  },
  {
   "property": "C37",
   "status": "proved",
   "theorems": [
    "c37_from_be_bytes",
    "c37_from_le_bytes",
    "c37_from_u128",
    "c37_to_be_bytes",
    "c37_equality",
    "c37_from_be_to_be",
    "c37_to_be_from_be"
   ],
   "note": ""
  },
  {
   "property": "C38",
   "status": "proved",
   "theorems": [
    "c38_add",
    "c38_add_u8"
   ],
   "note": ""
  },
  {
   "property": "C39",
   "status": "proved",
   "theorems": [
    "c39_sub",
    "c39_sub_underflow",
    "c39_sub_panics"
   ],
   "note": ""
  },
  {
   "property": "C40",
   "status": "proved",
   "theorems": [
    "c40_cmp",
    "c40_cmp_eq"
   ],
   "note": ""
  },
  {
   "property": "C41",
   "status": "proved",
   "theorems": [
    "c41_rem",
    "c41_rem_zero"
   ],
   "note": ""
  },
  {
   "property": "C42",
   "status": "proved",
   "theorems": [
    "c42_shl",
    "c42_shl_zero",
    "c42_shr",
    "c42_shr_panics"
   ],
   "note": ""
  },
  {
   "property": "C43",
   "status": "proved",
   "theorems": [
    "c43_bits_used",
    "c43_bit_length",
    "c43_is_set",
    "c43_update",
    "c43_update_panics"
   ],
   "note": ""
  },
  {
   "property": "C44",
   "status": "proved",
   "theorems": [
    "c44_as_u128",
    "c44_roundtrip"
   ],
   "note": ""
  },
  {
   "property": "C45",
   "status": "proved",
   "theorems": [
    "c45_reachable_canonical",
    "c45_shl_zero_breaks",
    "c45_clear_breaks",
    "c45_preservation_refuted"
   ],
   "note": "The claimed behaviour is violated by the code: the _refuted theorem(s) exhibit a witness, the other theorems say exactly what happens."
  },
  {
   "property": "C46",
   "status": "proved",
   "theorems": [
    "c46_rsa_primitive",
    "c46_mul_mod",
    "c46_pow_mod"
   ],
   "note": ""
  },
  {
   "property": "C47",
   "status": "proved",
   "theorems": [
    "c47_create_keys",
    "c47_not_coprime_panics",
    "c47_too_big_panics",
    "c47_not_u128_panics",
    "c47_any_factors",
    "c47_degenerate_factors",
    "c47_inverse",
    "c47_inverse_of_large_modulus_refuted",
    "c47_inverse_from_2_127",
    "c47_large_lcm"
   ],
   "note": "The claimed behaviour is violated by the code: the _refuted theorem(s) exhibit a witness, the other theorems say exactly what happens."
  },
  {
   "property": "C48",
   "status": "proved",
   "theorems": [
    "c48_roundtrip",
    "c48_roundtrip_below",
    "c48_roundtrip_any_key"
   ],
   "note": ""
  },
  {
   "property": "C49",
   "status": "proved",
   "theorems": [
    "c49_prime_twice_refuted",
    "c49_no_prime_check",
    "c49_composite_refuted"
   ],
   "note": "The claimed behaviour is violated by the code: the _refuted theorem(s) exhibit a witness, the other theorems say exactly what happens."
  },
  {
   "property": "C50",
   "status": "proved",
   "theorems": [
    "c50_mgf1",
    "c50_mgf1_byte",
    "c50_mgf1_length",
    "c50_mgf1_prefix",
    "c50_mgf1_overflow",
    "c50_sha256",
    "c50_sha1"
   ],
   "note": ""
  },
  {
   "property": "C51",
   "status": "proved",
   "theorems": [
    "c51_oaep_roundtrip",
    "c51_rsa_padding_roundtrip",
    "c51_too_short_panics",
    "c51_too_long_panics"
   ],
   "note": ""
  },
  {
   "property": "C52",
   "status": "proved",
   "theorems": [
    "c52_encode_conforms",
    "c52_same_mask"
   ],
   "note": ""
  },
  {
   "property": "C53",
   "status": "proved",
   "theorems": [
    "c53_decode_iff",
    "c53_decode_rejects",
    "c53_unique",
    "c53_short_panics",
    "c53_empty_panics",
    "c53_first_byte",
    "c53_length_mismatch_panics",
    "c53_wrong_label",
    "c53_missing_separator",
    "c53_separator"
   ],
   "note": ""
  },
  {
   "property": "C54",
   "status": "proved",
   "theorems": [
    "c54_encrypt_message",
    "c54_modulus_too_short_panics",
    "c54_encrypt_message_any_padding"
   ],
   "note": ""
  },
  {
   "property": "C55",
   "status": "proved",
   "theorems": [
    "c55_message_roundtrip",
    "c55_decrypt_message"
   ],
   "note": ""
  },
  {
   "property": "C56",
   "status": "proved",
   "theorems": [
    "c56_short_ciphertext_panics",
    "c56_roundtrip_refuted"
   ],
   "note": "The claimed behaviour is violated by the code: the _refuted theorem(s) exhibit a witness, the other theorems say exactly what happens."
  },
  {
   "property": "C57",
   "status": "proved",
   "theorems": [
    "c57_accepts",
    "c57_prefix",
    "c57_unambiguous",
    "c57_ber"
   ],
   "note": ""
  },
  {
   "property": "C58",
   "status": "proved",
   "theorems": [
    "c58_der_roundtrip",
    "c58_der_injective",
    "c58_der_prefix",
    "c58_der_shortest",
    "c58_der_ber"
   ],
   "note": ""
  },
  {
   "property": "C59",
   "status": "proved",
   "theorems": [
    "c59_panics_iff",
    "c59_errors_iff",
    "c59_otherwise",
    "c59_no_panic_refuted"
   ],
   "note": "The claimed behaviour is violated by the code: the _refuted theorem(s) exhibit a witness, the other theorems say exactly what happens."
  },
  {
   "property": "C60",
   "status": "proved",
   "theorems": [
    "c60_too_little",
    "c60_too_little_short",
    "c60_truncated",
    "c60_lengths_refuted"
   ],
   "note": "The claimed behaviour is violated by the code: the _refuted theorem(s) exhibit a witness, the other theorems say exactly what happens."
  },
  {
   "property": "C61",
   "status": "proved",
   "theorems": [
    "c61_roundtrip",
    "c61_line_feed",
    "c61_normalises"
   ],
   "note": ""
  },
  {
   "property": "C62",
   "status": "proved",
   "theorems": [
    "c62_accepts",
    "c62_lines",
    "c62_lines_unique",
    "c62_trimmed",
    "c62_white"
   ],
   "note": ""
  },
  {
   "property": "C63",
   "status": "proved",
   "theorems": [
    "c63_layout"
   ],
   "note": ""
  },
  {
   "property": "C64",
   "status": "proved",
   "theorems": [
    "c64_private_key",
    "c64_public_key",
    "c64_private_file",
    "c64_public_file",
    "c64_integers"
   ],
   "note": ""
  },
  {
   "property": "C65",
   "status": "proved",
   "theorems": [
    "c65_private_key",
    "c65_public_key",
    "c65_private_fields",
    "c65_public_fields",
    "c65_private_panics",
    "c65_public_panics"
   ],
   "note": ""
  },
  {
   "property": "C66",
   "status": "proved",
   "theorems": [
    "c66_create_keys_unusable"
   ],
   "note": ""
  },
  {
   "property": "C67",
   "status": "proved",
   "theorems": [
    "c67_errors",
    "c67_total"
   ],
   "note": ""
  },
  {
   "property": "C68",
   "status": "proved",
   "theorems": [
    "c68_encode",
    "c68_decode",
    "c68_length"
   ],
   "note": ""
  },
  {
   "property": "C69",
   "status": "proved",
   "theorems": [
    "c69_end_to_end"
   ],
   "note": ""
  },
  {
   "property": "C70",
   "status": "proved",
   "theorems": [
    "c70_encrypt",
    "c70_zero_block_size",
    "c70_decrypted",
    "c70_roundtrip_iff",
    "c70_roundtrip_all_sizes_refuted"
   ],
   "note": "The claimed behaviour is violated by the code: the _refuted theorem(s) exhibit a witness, the other theorems say exactly what happens."
  },
  {
   "property": "C71",
   "status": "proved",
   "theorems": [
    "c71_private_errors",
    "c71_public_errors"
   ],
   "note": ""
  },
  {
   "property": "C72",
   "status": "proved",
   "theorems": [
    "c72_value",
    "c72_panic",
    "c72_pad",
    "c72_aes",
    "c72_rc2",
    "c72_rc5",
    "c72_hashes",
    "c72_big",
    "c72_rsa",
    "c72_oaep",
    "c72_message",
    "c72_rsa_padding",
    "c72_asn1",
    "c72_keys",
    "c72_block_decryption",
    "c72_digests"
   ],
   "note": ""
  },
  {
   "property": "C73",
   "status": "proved",
   "theorems": [
    "c73_inverse",
    "c73_create_keys",
    "c73_not_u128_panics",
    "c73_keys_refuted"
   ],
   "note": "The claimed behaviour is violated by the code: the _refuted theorem(s) exhibit a witness, the other theorems say exactly what happens."
  },
  {
   "property": "C74",
   "status": "proved",
   "theorems": [
    "c74_rc2",
    "c74_unpad",
    "c74_asn1",
    "c74_asn1_panics",
    "c74_keys",
    "c74_decrypt_message",
    "c74_bits_used",
    "c74_oaep_too_long",
    "c74_empty_modulus"
   ],
   "note": ""
  },
  {
   "property": "C75",
   "status": "proved",
   "theorems": [
    "c75_sha1",
    "c75_sha256",
    "c75_sha512",
    "c75_sha224",
    "c75_sha384",
    "c75_md4",
    "c75_md5",
    "c75_md4_injective_refuted",
    "c75_md5_injective_refuted",
    "c75_sha1_injective_refuted"
   ],
   "note": "The claimed behaviour is violated by the code: the _refuted theorem(s) exhibit a witness, the other theorems say exactly what happens."
  },
  {
   "property": "C76",
   "status": "proved",
   "theorems": [
    "c76_sha1",
    "c76_sha256",
    "c76_sha512",
    "c76_md4",
    "c76_md5",
    "c76_sha1_collisions_extend"
   ],
   "note": ""
  },
  {
   "property": "C77",
   "status": "proved",
   "theorems": [
    "c77_pull",
    "c77_data_end",
    "c77_keys_end",
    "c77_panics",
    "c77_cases",
    "c77_collect",
    "c77_take"
   ],
   "note": ""
  },
  {
   "property": "C78",
   "status": "proved",
   "theorems": [
    "c78_keystream_reuse",
    "c78_bit_flip",
    "c78_rc4",
    "c78_ecb_equal_blocks",
    "c78_ecb_rearranged",
    "c78_rsa_product",
    "c78_rsa_blinding"
   ],
   "note": ""
  },
  {
   "property": "C79",
   "status": "proved",
   "theorems": [
    "c79_rc2_effective_bits",
    "c79_rc2_all_reached",
    "c79_rc2_distinct",
    "c79_rc4_key_bytes",
    "c79_rc4_repeated_key",
    "c79_rc4_long_key",
    "c79_rc5_zero_padded",
    "c79_aes_round_keys"
   ],
   "note": ""
  },
  {
   "property": "C80",
   "status": "proved",
   "theorems": [
    "c80_reversible",
    "c80_cycle",
    "c80_periodic",
    "c80_second_byte",
    "c80_finney_closed",
    "c80_finney_never"
   ],
   "note": ""
  },
  {
   "property": "C81",
   "status": "proved",
   "theorems": [
    "c81_erase_pow",
    "c81_erase_mul",
    "c81_pow",
    "c81_mul",
    "c81_leak",
    "c81_length",
    "c81_multiplications",
    "c81_constant_time_refuted"
   ],
   "note": "The claimed behaviour is violated by the code: the _refuted theorem(s) exhibit a witness, the other theorems say exactly what happens."
  },
  {
   "property": "C82",
   "status": "proved",
   "theorems": [
    "c82_depth",
    "c82_upper",
    "c82_unbounded"
   ],
   "note": ""
  },
  {
   "property": "C83",
   "status": "proved",
   "theorems": [
    "c83_erase",
    "c83_oracle",
    "c83_manger",
    "c83_attack"
   ],
   "note": ""
  },
  {
   "property": "C84",
   "status": "proved",
   "theorems": [
    "c84_spoiled",
    "c84_queries",
    "c84_cmp",
    "c84_rem",
    "c84_sub_left",
    "c84_add",
    "c84_add_u8",
    "c84_sub_right",
    "c84_shl",
    "c84_shr",
    "c84_as_u128",
    "c84_repair",
    "c84_rsa_message",
    "c84_rsa_exponent",
    "c84_rsa_modulus"
   ],
   "note": ""
  },
  {
   "property": "C85",
   "status": "proved",
   "theorems": [
    "c85_numeral",
    "c85_debug_asn1",
    "c85_debug_private_key",
    "c85_debug_public_key",
    "c85_debug_hash",
    "c85_private_message",
    "c85_public_message",
    "c85_asn1_message",
    "c85_pem_message",
    "c85_unwrap_message",
    "c85_texts_asn1",
    "c85_texts_private",
    "c85_texts_public",
    "c85_texts_other",
    "c85_texts_debug",
    "c85_leak",
    "c85_leak_inner",
    "c85_no_other_leak",
    "c85_no_other_leak_public",
    "c85_no_leak_elsewhere"
   ],
   "note": ""
  },
  {
   "property": "C86",
   "status": "proved",
   "theorems": [
    "c86_ecb",
    "c86_cbc_answer",
    "c86_cbc_message",
    "c86_nothing_else",
    "c86_aes",
    "c86_rc2",
    "c86_rc5"
   ],
   "note": ""
  },
  {
   "property": "C87",
   "status": "proved",
   "theorems": [
    "c87_first",
    "c87_next",
    "c87_last",
    "c87_code",
    "c87_branch_number",
    "c87_two_rounds",
    "c87_four_rounds",
    "c87_sbox_difference",
    "c87_sbox_fixed"
   ],
   "note": ""
  },
  {
   "property": "C88",
   "status": "proved",
   "theorems": [
    "c88_sha1",
    "c88_sha256",
    "c88_sha512",
    "c88_md4",
    "c88_md5",
    "c88_fixed_point",
    "c88_repeat"
   ],
   "note": ""
  },
  {
   "property": "C89",
   "status": "proved",
   "theorems": [
    "c89_residue",
    "c89_second_ciphertext",
    "c89_range_check_refuted"
   ],
   "note": "The claimed behaviour is violated by the code: the _refuted theorem(s) exhibit a witness, the other theorems say exactly what happens."
  },
  {
   "property": "C90",
   "status": "proved",
   "theorems": [
    "c90_broadcast",
    "c90_common_modulus",
    "c90_injective"
   ],
   "note": ""
  },
  {
   "property": "C91",
   "status": "proved",
   "theorems": [
    "c91_exponent_one_refuted",
    "c91_identity_exponent",
    "c91_fixed_messages"
   ],
   "note": "The claimed behaviour is violated by the code: the _refuted theorem(s) exhibit a witness, the other theorems say exactly what happens."
  },
  {
   "property": "C92",
   "status": "proved",
   "theorems": [
    "c92_mixing",
    "c92_mixing_inputs",
    "c92_checksum_chunk",
    "c92_one_block"
   ],
   "note": ""
  },
  {
   "property": "C93",
   "status": "proved",
   "theorems": [
    "c93_plaintexts",
    "c93_code",
    "c93_two_rounds",
    "c93_three_rounds"
   ],
   "note": ""
  },
  {
   "property": "C94",
   "status": "proved",
   "theorems": [
    "c94_rc5_no_rounds",
    "c94_rc5_known_block"
   ],
   "note": ""
  },
  {
   "property": "C95",
   "status": "proved",
   "theorems": [
    "c95_linear",
    "c95_lookup",
    "c95_not_affine"
   ],
   "note": ""
  },
  {
   "property": "C96",
   "status": "proved",
   "theorems": [
    "c96_encrypt",
    "c96_count",
    "c96_at_least_nine",
    "c96_discloses"
   ],
   "note": ""
  },
  {
   "property": "C97",
   "status": "proved",
   "theorems": [
    "c97_finds_a_prime",
    "c97_half_of_the_units",
    "c97_created_keys"
   ],
   "note": ""
  },
  {
   "property": "C98",
   "status": "proved",
   "theorems": [
    "c98_first_round",
    "c98_code",
    "c98_two_rounds",
    "c98_impossible"
   ],
   "note": ""
  },
  {
   "property": "C99",
   "status": "proved",
   "theorems": [
    "c99_sha1_window",
    "c99_sha256_window",
    "c99_sha512_window",
    "c99_sha1_differences",
    "c99_sha256_differences",
    "c99_sha512_differences",
    "c99_sha1_code",
    "c99_sha256_code",
    "c99_sha512_code"
   ],
   "note": ""
  },
  {
   "property": "C100",
   "status": "proved",
   "theorems": [
    "c100_rsa",
    "c100_create_keys",
    "c100_messages",
    "c100_oaep",
    "c100_mgf1_refuted",
    "c100_mgf1_debug",
    "c100_asn1",
    "c100_keys",
    "c100_biguint",
    "c100_ciphers",
    "c100_block",
    "c100_hashes",
    "c100_fuel"
   ],
   "note": "The claimed behaviour is violated by the code: the _refuted theorem(s) exhibit a witness, the other theorems say exactly what happens."
  },
  {
   "property": "C101",
   "status": "proved",
   "theorems": [
    "c101_sha1",
    "c101_sha224",
    "c101_sha256",
    "c101_sha384",
    "c101_sha512",
    "c101_md4",
    "c101_md5",
    "c101_two_hashes",
    "c101_md4_eight"
   ],
   "note": ""
  },
  {
   "property": "C102",
   "status": "proved",
   "theorems": [
    "c102_convergents",
    "c102_sound",
    "c102_created_keys",
    "c102_any_private"
   ],
   "note": ""
  },
  {
   "property": "C103",
   "status": "proved",
   "theorems": [
    "c103_equation"
   ],
   "note": ""
  },
  {
   "property": "C104",
   "status": "proved",
   "theorems": [
    "c104_erase",
    "c104_calls",
    "c104_success",
    "c104_held"
   ],
   "note": ""
  },
  {
   "property": "C105",
   "status": "proved",
   "theorems": [
    "c105_private_ignored",
    "c105_checked_refuted",
    "c105_exponent_one",
    "c105_exponent_zero",
    "c105_short_modulus",
    "c105_zero_modulus"
   ],
   "note": "The claimed behaviour is violated by the code: the _refuted theorem(s) exhibit a witness, the other theorems say exactly what happens."
  },
  {
   "property": "C106",
   "status": "proved",
   "theorems": [
    "c106_created_keys",
    "c106_first_attempt",
    "c106_accepted",
    "c106_sound"
   ],
   "note": ""
  },
  {
   "property": "C107",
   "status": "proved",
   "theorems": [
    "c107_next_key_byte",
    "c107_prefix",
    "c107_resolved"
   ],
   "note": ""
  },
  {
   "property": "C108",
   "status": "proved",
   "theorems": [
    "c108_appended_secret",
    "c108_questions",
    "c108_aes",
    "c108_rc2",
    "c108_rc5"
   ],
   "note": ""
  },
  {
   "property": "C109",
   "status": "proved",
   "theorems": [
    "c109_erase_encrypt",
    "c109_erase_decrypt",
    "c109_encrypt_lookups",
    "c109_decrypt_lookups",
    "c109_key",
    "c109_decrypt_key",
    "c109_lines"
   ],
   "note": ""
  },
  {
   "property": "C110",
   "status": "proved",
   "theorems": [
    "c110_cycle",
    "c110_attack",
    "c110_cycle_any_key"
   ],
   "note": ""
  },
  {
   "property": "C111",
   "status": "proved",
   "theorems": [
    "c111_pollard",
    "c111_accepted",
    "c111_any_modulus",
    "c111_sound"
   ],
   "note": ""
  },
  {
   "property": "C112",
   "status": "proved",
   "theorems": [
    "c112_upper_half",
    "c112_any_key"
   ],
   "note": ""
  },
  {
   "property": "C113",
   "status": "proved",
   "theorems": [
    "c113_erase_rem",
    "c113_erase_mul",
    "c113_erase_pow",
    "c113_message",
    "c113_any_number",
    "c113_bytes"
   ],
   "note": ""
  },
  {
   "property": "C114",
   "status": "proved",
   "theorems": [
    "c114_parity",
    "c114_half",
    "c114_answers"
   ],
   "note": ""
  },
  {
   "property": "C115",
   "status": "proved",
   "theorems": [
    "c115_forms",
    "c115_table_round"
   ],
   "note": ""
  },
  {
   "property": "C116",
   "status": "proved",
   "theorems": [
    "c116_turned",
    "c116_symmetric",
    "c116_key_expansion"
   ],
   "note": ""
  },
  {
   "property": "C117",
   "status": "proved",
   "theorems": [
    "c117_linear",
    "c117_difference",
    "c117_count",
    "c117_code",
    "c117_sha256_refuted"
   ],
   "note": "The claimed behaviour is violated by the code: the _refuted theorem(s) exhibit a witness, the other theorems say exactly what happens."
  },
  {
   "property": "C118",
   "status": "proved",
   "theorems": [
    "c118_values",
    "c118_private_keys",
    "c118_public_keys",
    "c118_one_encoding_refuted"
   ],
   "note": "The claimed behaviour is violated by the code: the _refuted theorem(s) exhibit a witness, the other theorems say exactly what happens."
  },
  {
   "property": "C119",
   "status": "proved",
   "theorems": [
    "c119_two_values",
    "c119_before",
    "c119_after"
   ],
   "note": ""
  },
  {
   "property": "C120",
   "status": "proved",
   "theorems": [
    "c120_every_table"
   ],
   "note": ""
  },
  {
   "property": "C121",
   "status": "proved",
   "theorems": [
    "c121_injective",
    "c121_next",
    "c121_decode",
    "c121_print"
   ],
   "note": ""
  },
  {
   "property": "C122",
   "status": "proved",
   "theorems": [
    "c122_one_fault",
    "c122_all_faults"
   ],
   "note": ""
  },
  {
   "property": "C123",
   "status": "proved",
   "theorems": [
    "c123_path",
    "c123_collision",
    "c123_injective_refuted"
   ],
   "note": "The claimed behaviour is violated by the code: the _refuted theorem(s) exhibit a witness, the other theorems say exactly what happens."
  },
  {
   "property": "C124",
   "status": "proved",
   "theorems": [
    "c124_64_bits",
    "c124_md4_short",
    "c124_md5_short",
    "c124_long_debug",
    "c124_long_release",
    "c124_other_padding",
    "c124_asn1_same",
    "c124_asn1_more",
    "c124_same_on_all_targets_refuted"
   ],
   "note": "The claimed behaviour is violated by the code: the _refuted theorem(s) exhibit a witness, the other theorems say exactly what happens."
  },
  {
   "property": "C125",
   "status": "proved",
   "theorems": [
    "c125_erase_sha1",
    "c125_erase_sha224",
    "c125_erase_sha256",
    "c125_erase_sha384",
    "c125_erase_sha512",
    "c125_erase_md4",
    "c125_erase_md5",
    "c125_erase_rc5_new",
    "c125_erase_rc5_encrypt",
    "c125_erase_rc5_decrypt",
    "c125_sha1",
    "c125_sha224",
    "c125_sha256",
    "c125_sha384",
    "c125_sha512",
    "c125_md4",
    "c125_md5",
    "c125_rc5_new",
    "c125_rc5_block"
   ],
   "note": ""
  },
  {
   "property": "C126",
   "status": "proved",
   "theorems": [
    "c126_erase_md2",
    "c126_erase_rc4_new",
    "c126_erase_rc4_next_key",
    "c126_erase_rc2_expand_key",
    "c126_erase_rc2_encrypt",
    "c126_erase_rc2_decrypt",
    "c126_md2",
    "c126_rc4",
    "c126_rc2",
    "c126_rc2_one_byte_refuted",
    "c126_rc2_longer_refuted",
    "c126_rc2_block_refuted"
   ],
   "note": "The claimed behaviour is violated by the code: the _refuted theorem(s) exhibit a witness, the other theorems say exactly what happens."
  },
  {
   "property": "C127",
   "status": "proved",
   "theorems": [
    "c127_distinct",
    "c127_top_bit",
    "c127_all_bits",
    "c127_fourteen",
    "c127_few_bits_refuted"
   ],
   "note": "The claimed behaviour is violated by the code: the _refuted theorem(s) exhibit a witness, the other theorems say exactly what happens."
  },
  {
   "property": "C128",
   "status": "proved",
   "theorems": [
    "c128_step",
    "c128_never",
    "c128_cycle",
    "c128_period"
   ],
   "note": ""
  },
  {
   "property": "C129",
   "status": "proved",
   "theorems": [
    "c129_exponents",
    "c129_code",
    "c129_create_keys"
   ],
   "note": ""
  },
  {
   "property": "C130",
   "status": "proved",
   "theorems": [
    "c130_last_round_key",
    "c130_key",
    "c130_one_is_not_enough"
   ],
   "note": ""
  },
  {
   "property": "C131",
   "status": "proved",
   "theorems": [
    "c131_64_bits",
    "c131_private_same",
    "c131_public_same",
    "c131_private_smaller",
    "c131_public_smaller",
    "c131_private_agree",
    "c131_public_agree",
    "c131_private_one_target",
    "c131_public_one_target",
    "c131_same_on_all_targets_refuted"
   ],
   "note": "The claimed behaviour is violated by the code: the _refuted theorem(s) exhibit a witness, the other theorems say exactly what happens."
  },
  {
   "property": "C132",
   "status": "proved",
   "theorems": [
    "c132_erase_decode",
    "c132_erase",
    "c132_decode",
    "c132_oracle",
    "c132_attack"
   ],
   "note": ""
  },
  {
   "property": "C133",
   "status": "proved",
   "theorems": [
    "c133_second",
    "c133_clear",
    "c133_bias",
    "c133_lists",
    "c133_glimpse"
   ],
   "note": ""
  },
  {
   "property": "C134",
   "status": "proved",
   "theorems": [
    "c134_number",
    "c134_pkcs",
    "c134_pkcs_genuine",
    "c134_bit",
    "c134_bit_genuine",
    "c134_ecb",
    "c134_aes"
   ],
   "note": ""
  },
  {
   "property": "C135",
   "status": "proved",
   "theorems": [
    "c135_accepted",
    "c135_produced",
    "c135_rsa_padding",
    "c135_decrypt_message"
   ],
   "note": ""
  }
 ]
}