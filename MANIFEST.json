{
 "claims": [
  {
   "property": "C01",
   "status": "proved",
   "theorems": [
    "C01_pkcs7_roundtrip",
    "C01_pkcs7_large_block"
   ],
   "note": ""
  },
  {
   "property": "C02",
   "status": "proved",
   "theorems": [
    "C02_pkcs7_unpad_accepts",
    "C02_pkcs7_strict_refuted"
   ],
   "note": "Defect in the code, shown by counterexample: C02_pkcs7_strict_refuted."
  },
  {
   "property": "C03",
   "status": "proved",
   "theorems": [
    "C03_pkcs5_roundtrip",
    "C03_pkcs5_accepts",
    "C03_x923_roundtrip",
    "C03_x923_accepts",
    "C03_iso10126_roundtrip"
   ],
   "note": ""
  },
  {
   "property": "C04",
   "status": "proved",
   "theorems": [
    "C04_iso7816_roundtrip",
    "C04_iso7816_accepts"
   ],
   "note": ""
  },
  {
   "property": "C05",
   "status": "proved",
   "theorems": [
    "C05_zero_roundtrip_iff",
    "C05_zero_loses_trailing_zeros",
    "C05_zero_aligned_unpadded_refuted"
   ],
   "note": "Defect in the code, shown by counterexample: C05_zero_aligned_unpadded_refuted."
  },
  {
   "property": "C06",
   "status": "proved",
   "theorems": [
    "C06_tbc_roundtrip",
    "C06_tbc_accepts_only"
   ],
   "note": ""
  },
  {
   "property": "C07",
   "status": "proved",
   "theorems": [
    "C07_pkcs1_roundtrip",
    "C07_pkcs1_fills_block_refuted",
    "C07_pkcs1_long_text_refuted"
   ],
   "note": "Defect in the code, shown by counterexample: C07_pkcs1_fills_block_refuted, C07_pkcs1_long_text_refuted."
  },
  {
   "property": "C08",
   "status": "proved",
   "theorems": [
    "C08_ecb_roundtrip",
    "C08_bc_roundtrip",
    "C08_pcbc_roundtrip",
    "C08_ige_roundtrip",
    "C08_ofbnlf_roundtrip"
   ],
   "note": ""
  },
  {
   "property": "C09",
   "status": "proved",
   "theorems": [
    "C09_inplace",
    "C09_ofbnlf_inplace",
    "C09_guards",
    "C09_pcbc_inplace_refuted",
    "C09_pcbc_inplace_roundtrip_refuted",
    "C09_pcbc_inplace_degenerates_to_ecb"
   ],
   "note": "Defect in the code, shown by counterexample: C09_pcbc_inplace_refuted, C09_pcbc_inplace_roundtrip_refuted."
  },
  {
   "property": "C10",
   "status": "proved",
   "theorems": [
    "C10_g3413cbc_single_roundtrip",
    "C10_g3413cbc_multi_call_refuted"
   ],
   "note": "Defect in the code, shown by counterexample: C10_g3413cbc_multi_call_refuted."
  },
  {
   "property": "C11",
   "status": "proved",
   "theorems": [
    "C11_cfb_chunk_invariant",
    "C11_cfb8_chunk_invariant",
    "C11_cfb1_chunk_invariant",
    "C11_ncfb_chunk_refuted",
    "C11_cfb16_chunk_refuted",
    "C11_ofb_chunk_invariant",
    "C11_ofb8_chunk_invariant",
    "C11_g3413ofb_chunk_invariant",
    "C11_g3413ctr_chunk_invariant",
    "C11_nofb_aligned_chunks",
    "C11_nofb_chunk_refuted",
    "C11_gofb_chunk_refuted"
   ],
   "note": "Defect in the code, shown by counterexample: C11_ncfb_chunk_refuted, C11_cfb16_chunk_refuted, C11_nofb_chunk_refuted, C11_gofb_chunk_refuted."
  },
  {
   "property": "C12",
   "status": "proved",
   "theorems": [
    "C12_ocfb_roundtrip",
    "C12_cfb_roundtrip",
    "C12_cfb8_roundtrip",
    "C12_cfb1_roundtrip",
    "C12_ncfb_roundtrip",
    "C12_cfb16_32_64_roundtrip",
    "C12_g3413cfb_roundtrip",
    "C12_gcfb_roundtrip",
    "C12_g3413cfb_inplace_refuted",
    "C12_ofb_roundtrip",
    "C12_ofb8_roundtrip",
    "C12_g3413ofb_roundtrip",
    "C12_g3413ctr_roundtrip",
    "C12_nofb_roundtrip",
    "C12_gofb_roundtrip"
   ],
   "note": "Defect in the code, shown by counterexample: C12_g3413cfb_inplace_refuted."
  },
  {
   "property": "C13",
   "status": "proved",
   "theorems": [
    "C13_wrap_computes",
    "C13_default_iv",
    "C13_roundtrip",
    "C13_unwrap_exact",
    "C13_guards",
    "C13_small_block_refuted"
   ],
   "note": "Defect in the code, shown by counterexample: C13_small_block_refuted."
  },
  {
   "property": "C14",
   "status": "proved",
   "theorems": [
    "C14_params",
    "C14_maxlen",
    "C14_seal_computes",
    "C14_opens_what_it_seals",
    "C14_opens_only_sealed",
    "C14_guards",
    "C14_inplace_refuted"
   ],
   "note": "Defect in the code, shown by counterexample: C14_inplace_refuted."
  },
  {
   "property": "C15",
   "status": "proved",
   "theorems": [
    "C15_seal_computes",
    "C15_roundtrip",
    "C15_opens_only_sealed",
    "C15_open_dst_refuted",
    "C15_zero_tag_refuted",
    "C15_block_size_refuted",
    "C15_guards"
   ],
   "note": "Defect in the code, shown by counterexample: C15_open_dst_refuted, C15_zero_tag_refuted, C15_block_size_refuted."
  },
  {
   "property": "C16",
   "status": "proved",
   "theorems": [
    "C16_ocb3_params",
    "C16_ocb3_seal",
    "C16_ocb3_open",
    "C16_ocb_packages_agree",
    "C16_ocb3_overhead_refuted",
    "C16_ocb3_nonce16_refuted",
    "C16_ocb3_seal_in_place_refuted",
    "C16_ocb3_failed_open_leaks_refuted",
    "C16_params",
    "C16_ocb_history",
    "C16_open_in_place_refuted",
    "C16_seal_in_place_refuted",
    "C16_seal_writes_behind_refuted",
    "C16_nonce_guards"
   ],
   "note": "Defect in the code, shown by counterexample: C16_ocb3_overhead_refuted, C16_ocb3_nonce16_refuted, C16_ocb3_seal_in_place_refuted, C16_ocb3_failed_open_leaks_refuted, C16_open_in_place_refuted, C16_seal_in_place_refuted, C16_seal_writes_behind_refuted."
  },
  {
   "property": "C17",
   "status": "proved",
   "theorems": [
    "C17_field",
    "C17_seal",
    "C17_open",
    "C17_nonce",
    "C17_short_refuted",
    "C17_empty"
   ],
   "note": "Defect in the code, shown by counterexample: C17_short_refuted."
  },
  {
   "property": "C18",
   "status": "proved",
   "theorems": [
    "C18_cmac_history",
    "C18_rfc5297",
    "C18_pmac_history",
    "C18_aead",
    "C18_aead_pmac",
    "C18_round_trip",
    "C18_in_place_refuted",
    "C18_aes_keys"
   ],
   "note": "Defect in the code, shown by counterexample: C18_in_place_refuted."
  },
  {
   "property": "C19",
   "status": "proved",
   "theorems": [
    "C19_field",
    "C19_panics",
    "C19_computes",
    "C19_permutation",
    "C19_tweak_refuted",
    "C19_long_dst_refuted"
   ],
   "note": "Defect in the code, shown by counterexample: C19_tweak_refuted, C19_long_dst_refuted."
  },
  {
   "property": "C20",
   "status": "proved",
   "theorems": [
    "C20_params",
    "C20_streaming",
    "C20_nist",
    "C20_large_blocks_refuted",
    "C20_mac_cmac",
    "C20_mac_cmac_params",
    "C20_mac_cmac_empty_refuted",
    "C20_mac_cmac_64bit_refuted"
   ],
   "note": "Defect in the code, shown by counterexample: C20_large_blocks_refuted, C20_mac_cmac_empty_refuted, C20_mac_cmac_64bit_refuted."
  },
  {
   "property": "C21",
   "status": "proved",
   "theorems": [
    "C21_params",
    "C21_half_unique",
    "C21_streaming",
    "C21_verify",
    "C21_long_message_refuted",
    "C21_sum_disturbs_refuted",
    "C21_64bit_refuted"
   ],
   "note": "Defect in the code, shown by counterexample: C21_long_message_refuted, C21_sum_disturbs_refuted, C21_64bit_refuted."
  },
  {
   "property": "C22",
   "status": "proved",
   "theorems": [
    "C22_token",
    "C22_decrypt_iff",
    "C22_panic_iff",
    "C22_round_trip",
    "C22_new_key",
    "C22_key_order_refuted"
   ],
   "note": "Defect in the code, shown by counterexample: C22_key_order_refuted."
  },
  {
   "property": "C23",
   "status": "proved",
   "theorems": [
    "C23_marshal",
    "C23_round_trip",
    "C23_prefix_free"
   ],
   "note": ""
  },
  {
   "property": "C24",
   "status": "proved",
   "theorems": [
    "C24_accepts",
    "C24_total",
    "C24_reencode",
    "C24_raw",
    "C24_raw_one",
    "C24_map",
    "C24_map_any_order",
    "C24_map_refuted",
    "C24_bool_refuted",
    "C24_bool"
   ],
   "note": "Defect in the code, shown by counterexample: C24_map_refuted, C24_bool_refuted."
  },
  {
   "property": "C25",
   "status": "proved",
   "theorems": [
    "C25_encode",
    "C25_characters",
    "C25_round_trip_z",
    "C25_round_trip",
    "C25_injective",
    "C25_decode",
    "C25_reencode",
    "C25_invalid_refuted"
   ],
   "note": "Defect in the code, shown by counterexample: C25_invalid_refuted."
  },
  {
   "property": "C26",
   "status": "proved",
   "theorems": [
    "C26_idea"
   ],
   "note": ""
  },
  {
   "property": "C27",
   "status": "proved",
   "theorems": [
    "C27_trivium_stream",
    "C27_trivium_lengths",
    "C27_rabbit_stream",
    "C27_rabbit_rfc_refuted",
    "C27_rabbit_counters_refuted",
    "C27_kcipher2_inplace",
    "C27_kcipher2_plaintext_refuted",
    "C27_salsa20_stream",
    "C27_salsa20_wrap_refuted",
    "C27_hc128_stream",
    "C27_hc256_stream",
    "C27_hc_lengths"
   ],
   "note": "Defect in the code, shown by counterexample: C27_rabbit_rfc_refuted, C27_rabbit_counters_refuted, C27_kcipher2_plaintext_refuted, C27_salsa20_wrap_refuted."
  },
  {
   "property": "C28",
   "status": "proved",
   "theorems": [
    "C28_md2_streams",
    "C28_sm3_streams",
    "C28_has160_streams",
    "C28_oneshot",
    "C28_belt_streams",
    "C28_bash_streams",
    "C28_bash_bytewise",
    "C28_bash_chunking_refuted",
    "C28_bash_sizes",
    "C28_streebog_streams",
    "C28_streebog_standard",
    "C28_gost94_streams"
   ],
   "note": "Defect in the code, shown by counterexample: C28_bash_chunking_refuted."
  },
  {
   "property": "C29",
   "status": "proved",
   "theorems": [
    "C29_prime_key",
    "C29_generated_key",
    "C29_elgamal",
    "C29_elgamal_bytes",
    "C29_elgamal_accepts",
    "C29_elgamal_range_refuted",
    "C29_egdsa",
    "C29_egdsa_accepts",
    "C29_egdsa_range_refuted"
   ],
   "note": "Defect in the code, shown by counterexample: C29_elgamal_range_refuted, C29_egdsa_range_refuted."
  },
  {
   "property": "C30",
   "status": "proved",
   "theorems": [
    "C30_roundtrip",
    "C30_bytes",
    "C30_refuses",
    "C30_padding_checked",
    "C30_homomorphic",
    "C30_homomorphic_many",
    "C30_decrypt_total_refuted",
    "C30_decrypt_no_panic"
   ],
   "note": "Defect in the code, shown by counterexample: C30_decrypt_total_refuted."
  },
  {
   "property": "C31",
   "status": "proved",
   "theorems": [
    "C31_padding_keeps_text",
    "C31_padding_no_clobber_when_full",
    "C31_padding_clobbers_caller_refuted"
   ],
   "note": "Defect in the code, shown by counterexample: C31_padding_clobbers_caller_refuted."
  },
  {
   "property": "C32",
   "status": "proved",
   "theorems": [
    "C32_ecb_computes",
    "C32_bc_computes",
    "C32_pcbc_computes",
    "C32_ige_computes",
    "C32_ofbnlf_computes",
    "C32_g3413cbc_computes"
   ],
   "note": ""
  },
  {
   "property": "C33",
   "status": "proved",
   "theorems": [
    "C33_ige_set_iv_refuted",
    "C33_ige_set_iv_iff"
   ],
   "note": "Defect in the code, shown by counterexample: C33_ige_set_iv_refuted."
  },
  {
   "property": "C34",
   "status": "proved",
   "theorems": [
    "C34_cfb_computes",
    "C34_cfb8_computes",
    "C34_cfb1_computes",
    "C34_ncfb_computes",
    "C34_cfb16_32_64_computes",
    "C34_g3413cfb_computes",
    "C34_gcfb_computes",
    "C34_ocfb_enc_computes",
    "C34_ocfb_resync_computes",
    "C34_ofb_computes",
    "C34_ofb8_computes",
    "C34_g3413ofb_computes",
    "C34_g3413ctr_computes",
    "C34_nofb_computes",
    "C34_gofb_first_call_computes"
   ],
   "note": ""
  },
  {
   "property": "C35",
   "status": "proved",
   "theorems": [
    "C35_feedback_guards",
    "C35_cfbk_short_block_panics",
    "C35_g3413cfb_partial_then_panics",
    "C35_g3413cfb_zero_segment_diverges",
    "C35_gcfb_partial_block_panics",
    "C35_ofb_large_block_diverges_refuted",
    "C35_g3413ctr_large_segment_panics",
    "C35_guards"
   ],
   "note": "Defect in the code, shown by counterexample: C35_ofb_large_block_diverges_refuted."
  },
  {
   "property": "C36",
   "status": "proved",
   "theorems": [
    "C36_gofb_counter_step",
    "C36_gofb_counter_refuted"
   ],
   "note": "Defect in the code, shown by counterexample: C36_gofb_counter_refuted."
  },
  {
   "property": "C37",
   "status": "proved",
   "theorems": [
    "C37_cfbk_keystream_reuse_refuted",
    "C37_cfb16_nonstandard_refuted"
   ],
   "note": "Defect in the code, shown by counterexample: C37_cfbk_keystream_reuse_refuted, C37_cfb16_nonstandard_refuted."
  },
  {
   "property": "C38",
   "status": "proved",
   "theorems": [
    "C38_ocfb_quick_check"
   ],
   "note": ""
  },
  {
   "property": "C39",
   "status": "proved",
   "theorems": [
    "C39_gcfb_rfc4357_refuted",
    "C39_gcfb_before_meshing"
   ],
   "note": "Defect in the code, shown by counterexample: C39_gcfb_rfc4357_refuted."
  },
  {
   "property": "C40",
   "status": "proved",
   "theorems": [
    "C40_wrap_computes",
    "C40_roundtrip",
    "C40_single_block",
    "C40_padding_check_refuted",
    "C40_guards"
   ],
   "note": "Defect in the code, shown by counterexample: C40_padding_check_refuted."
  },
  {
   "property": "C41",
   "status": "proved",
   "theorems": [
    "C41_shift_left",
    "C41_gfn_double",
    "C41_shift_left_n",
    "C41_shift_left_n_refuted",
    "C41_right_xor",
    "C41_split_size",
    "C41_all_zero"
   ],
   "note": "Defect in the code, shown by counterexample: C41_shift_left_n_refuted."
  },
  {
   "property": "C42",
   "status": "proved",
   "theorems": [
    "C42_cbcmac",
    "C42_two_key",
    "C42_macdes",
    "C42_lmac",
    "C42_trcbc",
    "C42_cbcr",
    "C42_cbcr_forgery_refuted",
    "C42_params"
   ],
   "note": "Defect in the code, shown by counterexample: C42_cbcr_forgery_refuted."
  },
  {
   "property": "C43",
   "status": "proved",
   "theorems": [
    "C43_speck"
   ],
   "note": ""
  },
  {
   "property": "C44",
   "status": "proved",
   "theorems": [
    "C44_simon"
   ],
   "note": ""
  },
  {
   "property": "C45",
   "status": "proved",
   "theorems": [
    "C45_lea"
   ],
   "note": ""
  },
  {
   "property": "C46",
   "status": "proved",
   "theorems": [
    "C46_threefish",
    "C46_threefish_tail",
    "C46_threefish_refuted",
    "C46_threefish_short_refuted"
   ],
   "note": "Defect in the code, shown by counterexample: C46_threefish_refuted, C46_threefish_short_refuted."
  },
  {
   "property": "C47",
   "status": "proved",
   "theorems": [
    "C47_rc2"
   ],
   "note": ""
  },
  {
   "property": "C48",
   "status": "proved",
   "theorems": [
    "C48_rc5"
   ],
   "note": ""
  },
  {
   "property": "C49",
   "status": "proved",
   "theorems": [
    "C49_rc6"
   ],
   "note": ""
  },
  {
   "property": "C50",
   "status": "proved",
   "theorems": [
    "C50_hight"
   ],
   "note": ""
  },
  {
   "property": "C51",
   "status": "proved",
   "theorems": [
    "C51_noekeon",
    "C51_noekeon_refuted"
   ],
   "note": "Defect in the code, shown by counterexample: C51_noekeon_refuted."
  },
  {
   "property": "C52",
   "status": "proved",
   "theorems": [
    "C52_gost",
    "C52_gost_refuted"
   ],
   "note": "Defect in the code, shown by counterexample: C52_gost_refuted."
  },
  {
   "property": "C53",
   "status": "proved",
   "theorems": [
    "C53_magma"
   ],
   "note": ""
  },
  {
   "property": "C54",
   "status": "proved",
   "theorems": [
    "C54_sign_verify",
    "C54_bytes",
    "C54_accepts",
    "C54_verify_total_refuted",
    "C54_verify_bytes_panics",
    "C54_s_range_refuted"
   ],
   "note": "Defect in the code, shown by counterexample: C54_verify_total_refuted, C54_s_range_refuted."
  },
  {
   "property": "C55",
   "status": "proved",
   "theorems": [
    "C55_sdsa_accepts",
    "C55_fsdsa_accepts",
    "C55_sdsa_sign_verify",
    "C55_fsdsa_sign_verify",
    "C55_retry_refuted",
    "C55_verify_total_refuted",
    "C55_verify_bytes_total"
   ],
   "note": "Defect in the code, shown by counterexample: C55_retry_refuted, C55_verify_total_refuted."
  },
  {
   "property": "C56",
   "status": "proved",
   "theorems": [
    "C56_sign_verify",
    "C56_accepts",
    "C56_bytes",
    "C56_verify_total",
    "C56_zero_r_refuted"
   ],
   "note": "Defect in the code, shown by counterexample: C56_zero_r_refuted."
  },
  {
   "property": "C57",
   "status": "proved",
   "theorems": [
    "C57_accepts",
    "C57_verify_total",
    "C57_sign_verify",
    "C57_retry_refuted"
   ],
   "note": "Defect in the code, shown by counterexample: C57_retry_refuted."
  },
  {
   "property": "C58",
   "status": "proved",
   "theorems": [
    "C58_generate",
    "C58_export_import",
    "C58_import_refuted",
    "C58_zero_key"
   ],
   "note": "Defect in the code, shown by counterexample: C58_import_refuted."
  },
  {
   "property": "C59",
   "status": "proved",
   "theorems": [
    "C59_sm3_restore",
    "C59_sm3_refuses",
    "C59_streebog_restore",
    "C59_streebog_refuses",
    "C59_streebog_accepts_refuted"
   ],
   "note": "Defect in the code, shown by counterexample: C59_streebog_accepts_refuted."
  },
  {
   "property": "C60",
   "status": "proved",
   "theorems": [
    "C60_belt",
    "C60_not_standard_refuted",
    "C60_hash_copy"
   ],
   "note": "Defect in the code, shown by counterexample: C60_not_standard_refuted."
  },
  {
   "property": "C61",
   "status": "proved",
   "theorems": [
    "C61_tlstree",
    "C61_tlstree_zero_key_refuted",
    "C61_esptree",
    "C61_esptree_panics"
   ],
   "note": "Defect in the code, shown by counterexample: C61_tlstree_zero_key_refuted."
  },
  {
   "property": "C62",
   "status": "proved",
   "theorems": [
    "C62_remainder",
    "C62_streams",
    "C62_sum64",
    "C62_table"
   ],
   "note": ""
  },
  {
   "property": "C63",
   "status": "proved",
   "theorems": [
    "C63_chunker",
    "C63_unique",
    "C63_bounds",
    "C63_resync",
    "C63_eager_refuted",
    "C63_late_end_refuted"
   ],
   "note": "Defect in the code, shown by counterexample: C63_eager_refuted, C63_late_end_refuted."
  },
  {
   "property": "C64",
   "status": "proved",
   "theorems": [
    "C64_zuc128_stream",
    "C64_zuc256_stream",
    "C64_zuc_aligned",
    "C64_zuc_cut_refuted",
    "C64_zuc_lengths"
   ],
   "note": "Defect in the code, shown by counterexample: C64_zuc_cut_refuted."
  },
  {
   "property": "C65",
   "status": "proved",
   "theorems": [
    "C65_zuc_buffer",
    "C65_zuc_noroom"
   ],
   "note": ""
  },
  {
   "property": "C66",
   "status": "proved",
   "theorems": [
    "C66_zuc256_mac",
    "C66_zuc_mac",
    "C66_eia_mac",
    "C66_eia3_refuted",
    "C66_reset_refuted",
    "C66_sum_twice_refuted"
   ],
   "note": "Defect in the code, shown by counterexample: C66_eia3_refuted, C66_reset_refuted, C66_sum_twice_refuted."
  },
  {
   "property": "C67",
   "status": "proved",
   "theorems": [
    "C67_eea3",
    "C67_eea3_roundtrip",
    "C67_eea3_inplace_refuted"
   ],
   "note": "Defect in the code, shown by counterexample: C67_eea3_inplace_refuted."
  },
  {
   "property": "C68",
   "status": "proved",
   "theorems": [
    "C68_checks",
    "C68_seal",
    "C68_open_short",
    "C68_open",
    "C68_round_trip",
    "C68_standard",
    "C68_header_refuted",
    "C68_forgery",
    "C68_inplace",
    "C68_inplace_even",
    "C68_inplace_refuted"
   ],
   "note": "Defect in the code, shown by counterexample: C68_header_refuted, C68_inplace_refuted."
  },
  {
   "property": "C69",
   "status": "proved",
   "theorems": [
    "C69_checks",
    "C69_stream",
    "C69_round_trip",
    "C69_short"
   ],
   "note": ""
  },
  {
   "property": "C70",
   "status": "proved",
   "theorems": [
    "C70_keysize",
    "C70_rotors",
    "C70_round_trip",
    "C70_no_fixed_point",
    "C70_seed_ignored"
   ],
   "note": ""
  },
  {
   "property": "C71",
   "status": "proved",
   "theorems": [
    "C71_state",
    "C71_keysize",
    "C71_stream",
    "C71_round_trip",
    "C71_round_trip_iv",
    "C71_iv_cut_refuted",
    "C71_hash"
   ],
   "note": "Defect in the code, shown by counterexample: C71_iv_cut_refuted."
  },
  {
   "property": "C72",
   "status": "proved",
   "theorems": [
    "C72_keysize",
    "C72_words",
    "C72_round_trip",
    "C72_round_trip_same_cut",
    "C72_cut_refuted"
   ],
   "note": "Defect in the code, shown by counterexample: C72_cut_refuted."
  },
  {
   "property": "C73",
   "status": "proved",
   "theorems": [
    "C73_pbkdf2",
    "C73_pbkdf2_prefix",
    "C73_negative",
    "C73_gost",
    "C73_gost_is_pbkdf2",
    "C73_gost_long_password_refuted",
    "C73_gost_memory",
    "C73_gost_adjacent_refuted"
   ],
   "note": "Defect in the code, shown by counterexample: C73_gost_long_password_refuted, C73_gost_adjacent_refuted."
  },
  {
   "property": "C74",
   "status": "proved",
   "theorems": [
    "C74_pkcs12",
    "C74_prefix",
    "C74_negative"
   ],
   "note": ""
  },
  {
   "property": "C75",
   "status": "proved",
   "theorems": [
    "C75_counter",
    "C75_feedback",
    "C75_pipeline",
    "C75_bad_arguments",
    "C75_counter_repeats"
   ],
   "note": ""
  },
  {
   "property": "C76",
   "status": "proved",
   "theorems": [
    "C76_tree",
    "C76_maximum_refuted",
    "C76_refuses"
   ],
   "note": "Defect in the code, shown by counterexample: C76_maximum_refuted."
  },
  {
   "property": "C77",
   "status": "proved",
   "theorems": [
    "C77_prfplus",
    "C77_prfplus_refuses",
    "C77_x963",
    "C77_x963_refuses"
   ],
   "note": ""
  },
  {
   "property": "C78",
   "status": "proved",
   "theorems": [
    "C78_s2k",
    "C78_needs_salt",
    "C78_tune_refuted",
    "C78_tune_given",
    "C78_decode",
    "C78_encode",
    "C78_code_roundtrip"
   ],
   "note": "Defect in the code, shown by counterexample: C78_tune_refuted."
  },
  {
   "property": "C79",
   "status": "proved",
   "theorems": [
    "C79_bcrypt_pbkdf",
    "C79_refuses"
   ],
   "note": ""
  },
  {
   "property": "C80",
   "status": "proved",
   "theorems": [
    "C80_coefficients",
    "C80_no_domination",
    "C80_parameters"
   ],
   "note": ""
  },
  {
   "property": "C81",
   "status": "proved",
   "theorems": [
    "C81_public_key",
    "C81_sign",
    "C81_one_time",
    "C81_verify",
    "C81_forgery"
   ],
   "note": ""
  },
  {
   "property": "C82",
   "status": "proved",
   "theorems": [
    "C82_signature_roundtrip",
    "C82_signature_canonical",
    "C82_signature_total",
    "C82_public_key"
   ],
   "note": ""
  },
  {
   "property": "C83",
   "status": "proved",
   "theorems": [
    "C83_tree",
    "C83_public_key"
   ],
   "note": ""
  },
  {
   "property": "C84",
   "status": "proved",
   "theorems": [
    "C84_history",
    "C84_count",
    "C84_seed_length_refuted",
    "C84_old_copy"
   ],
   "note": "Defect in the code, shown by counterexample: C84_seed_length_refuted."
  },
  {
   "property": "C85",
   "status": "proved",
   "theorems": [
    "C85_verify",
    "C85_binding",
    "C85_signature_roundtrip",
    "C85_signature_canonical",
    "C85_total_refuted",
    "C85_public_key"
   ],
   "note": "Defect in the code, shown by counterexample: C85_total_refuted."
  },
  {
   "property": "C86",
   "status": "proved",
   "theorems": [
    "C86_history",
    "C86_levels",
    "C86_rfc_refuted"
   ],
   "note": "Defect in the code, shown by counterexample: C86_rfc_refuted."
  },
  {
   "property": "C87",
   "status": "proved",
   "theorems": [
    "C87_public_key",
    "C87_short_signature_refuted",
    "C87_many_levels_refuted"
   ],
   "note": "Defect in the code, shown by counterexample: C87_short_signature_refuted, C87_many_levels_refuted."
  },
  {
   "property": "C88",
   "status": "proved",
   "theorems": [
    "C88_sign",
    "C88_no_panic",
    "C88_bytes",
    "C88_asn1",
    "C88_zero_r_refuted",
    "C88_top_key_refuted",
    "C88_sign_k"
   ],
   "note": "Defect in the code, shown by counterexample: C88_zero_r_refuted, C88_top_key_refuted."
  },
  {
   "property": "C89",
   "status": "proved",
   "theorems": [
    "C89_exact",
    "C89_off_curve",
    "C89_message",
    "C89_infinity_forges"
   ],
   "note": ""
  },
  {
   "property": "C90",
   "status": "proved",
   "theorems": [
    "C90_za",
    "C90_digest",
    "C90_binds"
   ],
   "note": ""
  },
  {
   "property": "C91",
   "status": "proved",
   "theorems": [
    "C91_roundtrip",
    "C91_roundtrip_k",
    "C91_asn1",
    "C91_standard",
    "C91_empty_refuted"
   ],
   "note": "Defect in the code, shown by counterexample: C91_empty_refuted."
  },
  {
   "property": "C92",
   "status": "proved",
   "theorems": [
    "C92_accepts",
    "C92_panics",
    "C92_infinity_refuted",
    "C92_asn1_integers",
    "C92_binds"
   ],
   "note": "Defect in the code, shown by counterexample: C92_infinity_refuted."
  },
  {
   "property": "C93",
   "status": "proved",
   "theorems": [
    "C93_agree",
    "C93_confirm_responder",
    "C93_confirm_initiator",
    "C93_off_curve"
   ],
   "note": ""
  },
  {
   "property": "C94",
   "status": "proved",
   "theorems": [
    "C94_result",
    "C94_agree",
    "C94_long_id_refuted",
    "C94_infinity_refuted",
    "C94_tag_order_refuted"
   ],
   "note": "Defect in the code, shown by counterexample: C94_long_id_refuted, C94_infinity_refuted, C94_tag_order_refuted."
  },
  {
   "property": "C95",
   "status": "proved",
   "theorems": [
    "C95_private",
    "C95_private_roundtrip",
    "C95_zero_key_refuted",
    "C95_generate",
    "C95_public",
    "C95_public_to",
    "C95_infinity_refuted"
   ],
   "note": "Defect in the code, shown by counterexample: C95_zero_key_refuted, C95_infinity_refuted."
  },
  {
   "property": "C96",
   "status": "proved",
   "theorems": [
    "C96_ff1_is_standard",
    "C96_ff1_permutation",
    "C96_ff1_no_panic",
    "C96_ff1_refuses",
    "C96_ff1_new",
    "C96_ff1_sign_refuted",
    "C96_ff1_capitals_refuted"
   ],
   "note": "Defect in the code, shown by counterexample: C96_ff1_sign_refuted, C96_ff1_capitals_refuted."
  },
  {
   "property": "C97",
   "status": "proved",
   "theorems": [
    "C97_ff3_is_standard",
    "C97_ff3_permutation",
    "C97_ff3_capitals_refuted",
    "C97_ff3_refuses",
    "C97_ff3_refuses_char",
    "C97_key_slice_refuted",
    "C97_ff3_new"
   ],
   "note": "Defect in the code, shown by counterexample: C97_ff3_capitals_refuted, C97_key_slice_refuted."
  },
  {
   "property": "C98",
   "status": "proved",
   "theorems": [
    "C98_gcd",
    "C98_extended",
    "C98_extended_recursive",
    "C98_extended_iterative",
    "C98_negative_refuted",
    "C98_lcm"
   ],
   "note": "Defect in the code, shown by counterexample: C98_negative_refuted."
  },
  {
   "property": "C99",
   "status": "proved",
   "theorems": [
    "C99_floor",
    "C99_ceil",
    "C99_round_negative",
    "C99_round_refuted",
    "C99_odd",
    "C99_rotate",
    "C99_sqrt"
   ],
   "note": "Defect in the code, shown by counterexample: C99_round_refuted."
  },
  {
   "property": "C100",
   "status": "proved",
   "theorems": [
    "C100_cascade",
    "C100_cascade_is"
   ],
   "note": ""
  },
  {
   "property": "C101",
   "status": "proved",
   "theorems": [
    "C101_new",
    "C101_roundtrip",
    "C101_is_lion",
    "C101_long_source_refuted",
    "C101_key_tail_refuted",
    "C101_long_destination_refuted"
   ],
   "note": "Defect in the code, shown by counterexample: C101_long_source_refuted, C101_key_tail_refuted, C101_long_destination_refuted."
  },
  {
   "property": "C102",
   "status": "proved",
   "theorems": [
    "C102_accepts",
    "C102_sign_with",
    "C102_sign_verify",
    "C102_bytes",
    "C102_verify_total_refuted",
    "C102_batch",
    "C102_batch_empty_refuted"
   ],
   "note": "Defect in the code, shown by counterexample: C102_verify_total_refuted, C102_batch_empty_refuted."
  },
  {
   "property": "C103",
   "status": "proved",
   "theorems": [
    "C103_adata",
    "C103_adata_refuted",
    "C103_accepts",
    "C103_negative_refuted",
    "C103_verify_total_refuted",
    "C103_sign_with",
    "C103_sign_random",
    "C103_zero_nonce_refuted",
    "C103_nonce",
    "C103_sign_deterministic"
   ],
   "note": "Defect in the code, shown by counterexample: C103_adata_refuted, C103_negative_refuted, C103_verify_total_refuted, C103_zero_nonce_refuted."
  },
  {
   "property": "C104",
   "status": "proved",
   "theorems": [
    "C104_sign_valid",
    "C104_bytes",
    "C104_nonce",
    "C104_deterministic",
    "C104_restart_refuted"
   ],
   "note": "Defect in the code, shown by counterexample: C104_restart_refuted."
  },
  {
   "property": "C105",
   "status": "proved",
   "theorems": [
    "C105_generate",
    "C105_accepts",
    "C105_verify_total_refuted",
    "C105_sign_with",
    "C105_retry_refuted",
    "C105_sign",
    "C105_bytes"
   ],
   "note": "Defect in the code, shown by counterexample: C105_verify_total_refuted, C105_retry_refuted."
  },
  {
   "property": "C106",
   "status": "proved",
   "theorems": [
    "C106_roundtrip",
    "C106_zero_refuted",
    "C106_large_refuted",
    "C106_decrypt_total",
    "C106_zero_modulus_refuted"
   ],
   "note": "Defect in the code, shown by counterexample: C106_zero_refuted, C106_large_refuted, C106_zero_modulus_refuted."
  },
  {
   "property": "C107",
   "status": "proved",
   "theorems": [
    "C107_test",
    "C107_primes_pass",
    "C107_composite_refuted",
    "C107_test_ends",
    "C107_generated",
    "C107_key_refuted",
    "C107_reader_refuted"
   ],
   "note": "Defect in the code, shown by counterexample: C107_composite_refuted, C107_key_refuted, C107_reader_refuted."
  },
  {
   "property": "C108",
   "status": "proved",
   "theorems": [
    "C108_gost_scalar_mult",
    "C108_gost_add",
    "C108_gost_off_curve",
    "C108_gost_new_curve",
    "C108_gost_infinity_refuted"
   ],
   "note": "Defect in the code, shown by counterexample: C108_gost_infinity_refuted."
  },
  {
   "property": "C109",
   "status": "proved",
   "theorems": [
    "C109_gost_sign_exact",
    "C109_gost_verify_exact",
    "C109_gost_verify_degenerate",
    "C109_gost_verify_range",
    "C109_gost_sign_verify",
    "C109_gost_verify_length",
    "C109_gost_own_signature_refuted"
   ],
   "note": "Defect in the code, shown by counterexample: C109_gost_own_signature_refuted."
  },
  {
   "property": "C110",
   "status": "proved",
   "theorems": [
    "C110_gost_private_key",
    "C110_gost_generate",
    "C110_gost_point_encoding",
    "C110_gost_point_decoding",
    "C110_gost_kek_agrees",
    "C110_gost_kek_hashed",
    "C110_gost_ukm",
    "C110_gost_equal",
    "C110_gost_equal_nil_refuted"
   ],
   "note": "Defect in the code, shown by counterexample: C110_gost_equal_nil_refuted."
  },
  {
   "property": "C111",
   "status": "proved",
   "theorems": [
    "C111_gost_to_edwards",
    "C111_gost_from_edwards",
    "C111_gost_not_edwards"
   ],
   "note": ""
  },
  {
   "property": "C112",
   "status": "proved",
   "theorems": [
    "C112_kcdsa_verify_exact",
    "C112_kcdsa_generate_key",
    "C112_kcdsa_sign_verify",
    "C112_kcdsa_odd_q"
   ],
   "note": ""
  },
  {
   "property": "C113",
   "status": "proved",
   "theorems": [
    "C113_kcdsa_sign_bytes",
    "C113_kcdsa_verify_bytes",
    "C113_kcdsa_short_p_panics"
   ],
   "note": ""
  },
  {
   "property": "C114",
   "status": "proved",
   "theorems": [
    "C114_kcdsa_fast_parameters",
    "C114_kcdsa_whole_run"
   ],
   "note": ""
  },
  {
   "property": "C115",
   "status": "proved",
   "theorems": [
    "C115_kcdsa_ppgf",
    "C115_kcdsa_generate_x",
    "C115_kcdsa_ttak_parameters",
    "C115_kcdsa_regenerate",
    "C115_kcdsa_zero_generator_refuted"
   ],
   "note": "Defect in the code, shown by counterexample: C115_kcdsa_zero_generator_refuted."
  },
  {
   "property": "C116",
   "status": "proved",
   "theorems": [
    "C116_dh_generate",
    "C116_dh_tiny_modulus",
    "C116_dh_agreement",
    "C116_dh_public",
    "C116_dh_degenerate_peer_refuted"
   ],
   "note": "Defect in the code, shown by counterexample: C116_dh_degenerate_peer_refuted."
  },
  {
   "property": "C117",
   "status": "proved",
   "theorems": [
    "C117_dh_groups",
    "C117_dh_group_8192_refuted"
   ],
   "note": "Defect in the code, shown by counterexample: C117_dh_group_8192_refuted."
  },
  {
   "property": "C118",
   "status": "proved",
   "theorems": [
    "C118_ecies_encrypt_carries",
    "C118_ecies_roundtrip",
    "C118_ecies_encrypt_total",
    "C118_ecies_empty_refuted"
   ],
   "note": "Defect in the code, shown by counterexample: C118_ecies_empty_refuted."
  },
  {
   "property": "C119",
   "status": "proved",
   "theorems": [
    "C119_ecies_decrypt_exact",
    "C119_ecies_shift_refuted"
   ],
   "note": "Defect in the code, shown by counterexample: C119_ecies_shift_refuted."
  },
  {
   "property": "C120",
   "status": "proved",
   "theorems": [
    "C120_ecies_decrypt_panics_exact",
    "C120_ecies_decrypt_panics_refuted",
    "C120_ecies_sizes",
    "C120_ecies_aes256_sha384_refuted",
    "C120_ecies_zero_ephemeral_refuted"
   ],
   "note": "Defect in the code, shown by counterexample: C120_ecies_decrypt_panics_refuted, C120_ecies_aes256_sha384_refuted, C120_ecies_zero_ephemeral_refuted."
  },
  {
   "property": "C121",
   "status": "proved",
   "theorems": [
    "C121_round_trip",
    "C121_authenticated",
    "C121_hctr",
    "C121_ocfb",
    "C121_unknown",
    "C121_ocfb_decrypt_twice_refuted"
   ],
   "note": "Defect in the code, shown by counterexample: C121_ocfb_decrypt_twice_refuted."
  },
  {
   "property": "C122",
   "status": "proved",
   "theorems": [
    "C122_reports",
    "C122_panicking_handler_refuted"
   ],
   "note": "Defect in the code, shown by counterexample: C122_panicking_handler_refuted."
  },
  {
   "property": "C123",
   "status": "proved",
   "theorems": [
    "C123_errors_do_not_stop",
    "C123_bad_text_keeps_data"
   ],
   "note": ""
  },
  {
   "property": "C124",
   "status": "proved",
   "theorems": [
    "C124_option_stored",
    "C124_options_isolated",
    "C124_package_chains_share_refuted"
   ],
   "note": "Defect in the code, shown by counterexample: C124_package_chains_share_refuted."
  },
  {
   "property": "C125",
   "status": "proved",
   "theorems": [
    "C125_errors_stay",
    "C125_errors_isolated",
    "C125_forked_errors_refuted"
   ],
   "note": "Defect in the code, shown by counterexample: C125_forked_errors_refuted."
  },
  {
   "property": "C126",
   "status": "proved",
   "theorems": [
    "C126_nist_hash_history",
    "C126_nist_hash_fills"
   ],
   "note": ""
  },
  {
   "property": "C127",
   "status": "proved",
   "theorems": [
    "C127_gm_hash_history",
    "C127_gm_hash_tail_refuted"
   ],
   "note": "Defect in the code, shown by counterexample: C127_gm_hash_tail_refuted."
  },
  {
   "property": "C128",
   "status": "proved",
   "theorems": [
    "C128_hmac_history",
    "C128_hmac_fills"
   ],
   "note": ""
  },
  {
   "property": "C129",
   "status": "proved",
   "theorems": [
    "C129_ctr_history",
    "C129_ctr_nist",
    "C129_ctr_fills",
    "C129_ctr_padding_refuted"
   ],
   "note": "Defect in the code, shown by counterexample: C129_ctr_padding_refuted."
  },
  {
   "property": "C130",
   "status": "proved",
   "theorems": [
    "C130_hash_interval",
    "C130_hmac_interval",
    "C130_ctr_interval",
    "C130_prng_read",
    "C130_keygen",
    "C130_keygen_short_read_refuted"
   ],
   "note": "Defect in the code, shown by counterexample: C130_keygen_short_read_refuted."
  },
  {
   "property": "C131",
   "status": "proved",
   "theorems": [
    "C131_pem_roundtrip",
    "C131_pem_nil_cipher"
   ],
   "note": ""
  },
  {
   "property": "C132",
   "status": "proved",
   "theorems": [
    "C132_pem_decrypt_exact",
    "C132_wrong_password_unreported"
   ],
   "note": ""
  },
  {
   "property": "C133",
   "status": "proved",
   "theorems": [
    "C133_derive_key",
    "C133_derive_key_prefix"
   ],
   "note": ""
  },
  {
   "property": "C134",
   "status": "proved",
   "theorems": [
    "C134_pbes1_roundtrip",
    "C134_pbes1_decrypt_exact",
    "C134_count_unchecked"
   ],
   "note": ""
  },
  {
   "property": "C135",
   "status": "proved",
   "theorems": [
    "C135_pbes2_roundtrip",
    "C135_variants",
    "C135_ccm_too_long"
   ],
   "note": ""
  },
  {
   "property": "C136",
   "status": "proved",
   "theorems": [
    "C136_pbes2_decrypt_exact",
    "C136_rc2_version_ignored"
   ],
   "note": ""
  },
  {
   "property": "C137",
   "status": "proved",
   "theorems": [
    "C137_ber2der",
    "C137_output_is_der",
    "C137_idempotent",
    "C137_injective"
   ],
   "note": ""
  },
  {
   "property": "C138",
   "status": "proved",
   "theorems": [
    "C138_panic_only_cut_tag",
    "C138_panics_refuted",
    "C138_overrun_accepted",
    "C138_exponential",
    "C138_empty_indefinite"
   ],
   "note": "Defect in the code, shown by counterexample: C138_panics_refuted."
  },
  {
   "property": "C139",
   "status": "proved",
   "theorems": [
    "C139_encrypt_is_protector",
    "C139_roundtrip",
    "C139_decrypt_exact",
    "C139_short_panics"
   ],
   "note": ""
  },
  {
   "property": "C140",
   "status": "proved",
   "theorems": [
    "C140_history",
    "C140_marshal_load",
    "C140_marshal_format",
    "C140_get_key",
    "C140_long_alias_refuted",
    "C140_failed_random_destroys_key"
   ],
   "note": "Defect in the code, shown by counterexample: C140_long_alias_refuted."
  },
  {
   "property": "C141",
   "status": "proved",
   "theorems": [
    "C141_load_exact",
    "C141_panic_negative_length",
    "C141_panics_refuted"
   ],
   "note": "Defect in the code, shown by counterexample: C141_panics_refuted."
  },
  {
   "property": "C142",
   "status": "proved",
   "theorems": [
    "C142_rsa_private_operation",
    "C142_rsa_private_too_large",
    "C142_rsa_key_equation",
    "C142_rsa_blinding_enough"
   ],
   "note": ""
  },
  {
   "property": "C143",
   "status": "proved",
   "theorems": [
    "C143_rsa_public_roundtrip",
    "C143_rsa_private_roundtrip"
   ],
   "note": ""
  },
  {
   "property": "C144",
   "status": "proved",
   "theorems": [
    "C144_rsa_long_layout",
    "C144_rsa_long_private_refuted",
    "C144_rsa_long_public_refuted",
    "C144_rsa_long_roundtrip_refuted",
    "C144_rsa_foreign_blocks"
   ],
   "note": "Defect in the code, shown by counterexample: C144_rsa_long_private_refuted, C144_rsa_long_public_refuted, C144_rsa_long_roundtrip_refuted."
  },
  {
   "property": "C145",
   "status": "proved",
   "theorems": [
    "C145_rsa_public_recover",
    "C145_rsa_public_panic",
    "C145_rsa_panic_refuted",
    "C145_rsa_forgery_refuted"
   ],
   "note": "Defect in the code, shown by counterexample: C145_rsa_panic_refuted, C145_rsa_forgery_refuted."
  },
  {
   "property": "C146",
   "status": "proved",
   "theorems": [
    "C146_rsa_lower_roundtrip",
    "C146_rsa_lower_shortest",
    "C146_rsa_lower_leading_zero_refuted",
    "C146_rsa_lower_exact"
   ],
   "note": "Defect in the code, shown by counterexample: C146_rsa_lower_leading_zero_refuted."
  },
  {
   "property": "C147",
   "status": "proved",
   "theorems": [
    "C147_argon2fmt_compare_exact",
    "C147_argon2fmt_generate_exact",
    "C147_argon2fmt_roundtrip",
    "C147_argon2fmt_malformed_panics",
    "C147_argon2fmt_accept_sound"
   ],
   "note": ""
  },
  {
   "property": "C148",
   "status": "proved",
   "theorems": [
    "C148_argon2_compare_exact",
    "C148_argon2_generate_exact",
    "C148_argon2_roundtrip",
    "C148_argon2_unsalted_refuted",
    "C148_argon2_accept_sound"
   ],
   "note": "Defect in the code, shown by counterexample: C148_argon2_unsalted_refuted."
  },
  {
   "property": "C149",
   "status": "proved",
   "theorems": [
    "C149_passhash9_compare_exact",
    "C149_passhash9_generate_exact",
    "C149_passhash9_roundtrip",
    "C149_passhash9_limit_refuted"
   ],
   "note": "Defect in the code, shown by counterexample: C149_passhash9_limit_refuted."
  },
  {
   "property": "C150",
   "status": "proved",
   "theorems": [
    "C150_bks_history",
    "C150_bks_adds",
    "C150_bks_roundtrip",
    "C150_bks_format"
   ],
   "note": ""
  },
  {
   "property": "C151",
   "status": "proved",
   "theorems": [
    "C151_bks_parse_exact",
    "C151_bks_v1_forgery_refuted",
    "C151_bks_panic_negative_length",
    "C151_bks_negative_salt_panics"
   ],
   "note": "Defect in the code, shown by counterexample: C151_bks_v1_forgery_refuted."
  },
  {
   "property": "C152",
   "status": "proved",
   "theorems": [
    "C152_sealed_roundtrip",
    "C152_sealed_sound",
    "C152_reloaded_marshal_panics_refuted",
    "C152_reseal_empty_password_refuted",
    "C152_failed_open_destroys_refuted",
    "C152_empty_sealed_panics_refuted",
    "C152_plain_getters"
   ],
   "note": "Defect in the code, shown by counterexample: C152_reloaded_marshal_panics_refuted, C152_reseal_empty_password_refuted, C152_failed_open_destroys_refuted, C152_empty_sealed_panics_refuted."
  },
  {
   "property": "C153",
   "status": "proved",
   "theorems": [
    "C153_uber_parse_exact",
    "C153_uber_roundtrip",
    "C153_uber_short_panics_refuted"
   ],
   "note": "Defect in the code, shown by counterexample: C153_uber_short_panics_refuted."
  },
  {
   "property": "C154",
   "status": "proved",
   "theorems": [
    "C154_sm4",
    "C154_sm4_tables",
    "C154_sm4_standard"
   ],
   "note": ""
  },
  {
   "property": "C155",
   "status": "proved",
   "theorems": [
    "C155_shacal2",
    "C155_shacal2_is_sha256",
    "C155_shacal2_equivalent_keys_refuted"
   ],
   "note": "Defect in the code, shown by counterexample: C155_shacal2_equivalent_keys_refuted."
  },
  {
   "property": "C156",
   "status": "proved",
   "theorems": [
    "C156_skipjack"
   ],
   "note": ""
  }
 ]
}