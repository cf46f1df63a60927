{
 "claims": [
  {
   "property": "C01",
   "status": "proved",
   "theorems": [
    "C01_newest_entries",
    "C01_identifiers_consecutive",
    "C01_copy_entries"
   ],
   "note": "Whole of logging_memory.c except allocation and locking; copy_entries for a destination that accepts every entry."
  },
  {
   "property": "C02",
   "status": "proved",
   "theorems": [
    "C02_windowed_read"
   ],
   "note": ""
  },
  {
   "property": "C03",
   "status": "proved",
   "theorems": [
    "C03_warm_reset",
    "C03_warm_reset_empty",
    "C03_stale_memory_refuted"
   ],
   "note": "For memory cleared before first use; the stale-memory case is refuted by a witness. Numbering restarts at 0 when the log was empty."
  },
  {
   "property": "C04",
   "status": "proved",
   "theorems": [
    "C04_one_copy_damaged",
    "C04_bitwise_majority",
    "C04_stored_words_are_marked"
   ],
   "note": "Stated for the words the manager stores (marker bits 7 set / 6 clear)."
  },
  {
   "property": "C05",
   "status": "proved",
   "theorems": [
    "C05_durable",
    "C05_active_region_durable",
    "C05_retry_succeeds",
    "C05_save_active",
    "C05_unreported_erase_failure_refuted"
   ],
   "note": "Histories of set/store/restart from blank flash, write failures included. An unreported erase failure combined with a damaged marker loses the state: C05_unreported_erase_failure_refuted."
  },
  {
   "property": "C06",
   "status": "proved",
   "theorems": [
    "C06_power_loss_atomic",
    "C06_power_loss_at_start",
    "C06_torn_first_copy_refuted"
   ],
   "note": "Power loss between flash operations, in a program operation past the second copy, and in an erase past the first entry, after any history with such losses. A program operation torn inside the first two copies yields a state never stored: C06_torn_first_copy_refuted."
  },
  {
   "property": "C07",
   "status": "proved",
   "theorems": [
    "C07_store_contents",
    "C07_other_blocks_untouched",
    "C07_write_succeeds",
    "C07_pages_written_once",
    "C07_init",
    "C07_init_overflow_refuted",
    "C07_init_decreasing_refuted",
    "C07_old_header_refuted"
   ],
   "note": "Histories of writes/erases with arbitrary faults, all geometries, plain/hashed/encrypted; C07_init gives the conditions on the set-up. Refuted: 32-bit overflow in init, downward stores past the device end, misread of old-format headers above 42239 bytes."
  },
  {
   "property": "C08",
   "status": "proved",
   "theorems": [
    "C08_read_checked",
    "C08_power_loss",
    "C08_write_operations",
    "C08_failed_write",
    "C08_torn_header_refuted"
   ],
   "note": "Every interruption between device operations, and torn writes for unbuffered stores below 65280 bytes; C08_torn_header_refuted shows the limit is real."
  },
  {
   "property": "C09",
   "status": "proved",
   "theorems": [
    "C09_increment",
    "C09_decrement",
    "C09_compare",
    "C09_compare_empty_refuted",
    "C09_is_zero"
   ],
   "note": "Whole of the arithmetic part of common_math.c; empty arrays are excluded from comparison (refuted witness given)."
  },
  {
   "property": "C10",
   "status": "proved",
   "theorems": [
    "C10_set_bit",
    "C10_clear_bit",
    "C10_test_bit",
    "C10_out_of_range",
    "C10_population_count",
    "C10_count_before_index",
    "C10_leading_run",
    "C10_set_next_bit",
    "C10_set_to_parity",
    "C10_right_shift",
    "C10_left_shift",
    "C10_byte_swap"
   ],
   "note": "All bit-array functions, counts, shifts and byte swaps."
  },
  {
   "property": "C11",
   "status": "proved",
   "theorems": [
    "C11_segmented_copy",
    "C11_null_is_noop",
    "C11_reverse",
    "C11_reverse_copy",
    "C11_compare"
   ],
   "note": ""
  },
  {
   "property": "C12",
   "status": "proved",
   "theorems": [
    "C12_wrap_is_rfc3394",
    "C12_unwrap_is_rfc3394",
    "C12_round_trip",
    "C12_only_wrapped_data_unwraps",
    "C12_failed_unwrap",
    "C12_failed_wrap"
   ],
   "note": "aes_key_wrap.c is shown equal to RFC 3394 written from the standard; the block cipher is a parameter required to be a bijection on 16-byte blocks. Buffers below 4 GiB."
  },
  {
   "property": "C13",
   "status": "proved",
   "theorems": [
    "C13_wrap_is_rfc5649",
    "C13_unwrap_iff_rfc5649",
    "C13_round_trip",
    "C13_failed_unwrap"
   ],
   "note": "aes_key_wrap_with_padding.c against RFC 5649, including the 16-byte single-block case. The block cipher is a parameter. Buffers below 4 GiB."
  },
  {
   "property": "C14",
   "status": "proved",
   "theorems": [
    "C14_is_remainder",
    "C14_incremental",
    "C14_detects_one_byte",
    "C14_detects_address",
    "C14_detects_burst",
    "C14_block_of_256_refuted"
   ],
   "note": "For blocks of 1..255 bytes; the uint8_t length makes 256-byte blocks unprotected (refuted witness)."
  },
  {
   "property": "C15",
   "status": "proved",
   "theorems": [
    "C15_round_trip",
    "C15_construct_total",
    "C15_interpret_bounds",
    "C15_pec_checked",
    "C15_long_packet_pec_refuted"
   ],
   "note": "Construct and interpret are inverse for every field value, and the PEC is the CRC of C14. For packets of 256 or 257 bytes, which the command channel cannot deliver, the PEC check is refuted (uint8_t length)."
  },
  {
   "property": "C16",
   "status": "proved",
   "theorems": [
    "C16_message_delivered",
    "C16_response_too_big"
   ],
   "note": "Packetising, the channel's cutting into packets and reassembly, for requests and responses, from any earlier assembly state."
  },
  {
   "property": "C17",
   "status": "proved",
   "theorems": [
    "C17_only_complete_messages",
    "C17_foreign_packets_ignored",
    "C17_buffer_never_exceeded"
   ],
   "note": "Over arbitrary histories of received packets and changing response expectations; also that foreign packets change nothing and the assembly buffer is never exceeded."
  },
  {
   "property": "C18",
   "status": "proved",
   "theorems": [
    "C18_in_place",
    "C18_response_delivered",
    "C18_unit",
    "C18_small_unit_refuted"
   ],
   "note": "For every transmission unit of at least 64 bytes. Units below 64, which a remote device can announce because nothing checks its value, are refuted."
  },
  {
   "property": "C19",
   "status": "proved",
   "theorems": [
    "C19_returned_request_untouched",
    "C19_late_response_dropped",
    "C19_adjacent_check",
    "C19_null_dereference_refuted",
    "C19_wrong_request_refuted"
   ],
   "note": "All interleavings at lock granularity. Two races in the receive path are refuted: NULL response_msg dereferenced, and a response given to the wrong request."
  },
  {
   "property": "C20",
   "status": "proved",
   "theorems": [
    "C20_computed_pcr_is_extend_chain",
    "C20_compute_outcome",
    "C20_explicit_pcr",
    "C20_update_changes_only_that_digest",
    "C20_failed_call_changes_nothing",
    "C20_last_update_stays"
   ],
   "note": "pcr.c update, invalidate and compute functions as a store machine, for every hash function and every failing hash session; chain, recorded intermediate values, frame, and last update wins over any history."
  },
  {
   "property": "C21",
   "status": "proved",
   "theorems": [
    "C21_constant_measurements_never_change",
    "C21_error_is_constant_measurement"
   ],
   "note": "Over any later history of store calls. The event type and measured data of a constant measurement can still be changed (shown as an example): the property speaks of digest, version and flags."
  },
  {
   "property": "C22",
   "status": "proved",
   "theorems": [
    "C22_tcg_log_window",
    "C22_attestation_log_window",
    "C22_attestation_log_size",
    "C22_sequential_identifiers",
    "C22_empty_flash_region_refuted",
    "C22_null_memory_refuted"
   ],
   "note": "TCG log and attestation log against independent specifications of the complete logs; log size and sequential identifiers. Refuted for two data sources that the code accepts: an empty flash region and a NULL buffer with a length."
  },
  {
   "property": "C23",
   "status": "proved",
   "theorems": [
    "C23_blocks",
    "C23_calls_return",
    "C23_accounting",
    "C23_all_freed",
    "C23_refused_only_if_nothing_fits",
    "C23_other_blocks_untouched",
    "C23_contents"
   ],
   "note": "Pointer-level model of both doubly linked lists; client writes may corrupt any control block that overlaps live contents and nothing else. Freeing a block that is not live (double free) is outside the property."
  },
  {
   "property": "C24",
   "status": "proved",
   "theorems": [
    "C24_in_range",
    "C24_rounding_refuted",
    "C24_header_refuted",
    "C24_product_refuted"
   ],
   "note": "The limit is proved sharp in both directions: C24_in_range for every reachable state, and three refutations (rounding wraps to 0, control block placed outside the heap, calloc product wraps) showing that the code does not check."
  },
  {
   "property": "C25",
   "status": "proved",
   "theorems": [
    "C25_notified_once",
    "C25_registration_order",
    "C25_calls_return",
    "C25_no_leak"
   ],
   "note": "Entry-level model with every allocator choice and allocation failure. Callbacks that add or remove observers are not modelled: the lock is a plain mutex, so they deadlock."
  },
  {
   "property": "C26",
   "status": "proved",
   "theorems": [
    "C26_queue",
    "C26_at_most_once",
    "C26_no_starvation",
    "C26_limit",
    "C26_add_when_full_refuted",
    "C26_all_keys_found_refuted",
    "C26_failed_erase_refuted",
    "C26_too_few_blocks_refuted"
   ],
   "note": "C26_queue: after any life, an initialised cache refines a FIFO ledger of keys and debts for every geometry, call sequence and device fault. C26_at_most_once holds over power cycles and reinitialisations if a failed erase leaves nothing readable; C26_failed_erase_refuted shows the condition is needed. Further refuted: add on a full cache can shut the cache down, a key in the last block can be missed, too few usable blocks can be missed."
  },
  {
   "property": "C27",
   "status": "proved",
   "theorems": [
    "C27_full_validation",
    "C27_accepts",
    "C27_overlap_refuted",
    "C27_empty_region_refuted"
   ],
   "note": "Soundness needs no assumption about the layout of the regions. Acceptance is proved for separate non-empty regions; with overlapping regions a good flash is refused (C27_overlap_refuted), and an empty region makes the walk endless (C27_empty_region_refuted). Hash and RSA engines are arbitrary functions."
  },
  {
   "property": "C28",
   "status": "proved",
   "theorems": [
    "C28_regions",
    "C28_images_equal",
    "C28_images_same",
    "C28_images_ends",
    "C28_longer_authenticator_refuted",
    "C28_shorter_authenticator_refuted",
    "C28_overlap_refuted",
    "C28_endless_refuted"
   ],
   "note": "Only the length of the first authenticator is used: C28_images_equal and C28_images_same carry exactly the length condition this needs, and the two refutations show the code wrong without it. Overlapping regions and endless comparisons are refuted too."
  },
  {
   "property": "C29",
   "status": "proved",
   "theorems": [
    "C29_migrate",
    "C29_compatibility",
    "C29_migrate_multiple",
    "C29_restore_rw",
    "C29_restore_device",
    "C29_shared_block_refuted",
    "C29_restore_shared_block_refuted",
    "C29_overlap_refuted"
   ],
   "note": "Every device fault. Components (restore: regions) must not share an erase block, which the refutations show is needed. The source flash is a separate device and only read in the model."
  },
  {
   "property": "C30",
   "status": "proved",
   "theorems": [
    "C30_filter",
    "C30_filter_merged",
    "C30_empty_region_refuted",
    "C30_end_of_memory_refuted"
   ],
   "note": "Any filter command may fail. At most 255 regions (the region identifier is one byte). An empty region at address 0 opens the whole flash, and a region up to the end of memory makes the merged configuration endless: both refuted."
  },
  {
   "property": "C31",
   "status": "proved",
   "theorems": [
    "C31_stays_in_region",
    "C31_aligned_region",
    "C31_in_order_without_gaps",
    "C31_write_past_announced_length_refuted",
    "C31_unchecked_offset_refuted"
   ],
   "note": "Offsets applied to the updater must not exceed the region and the data must not exceed the announced length; both are unchecked by the code (refuted witnesses)."
  },
  {
   "property": "C32",
   "status": "proved",
   "theorems": [
    "C32_sessions",
    "C32_only_established",
    "C32_no_reuse",
    "C32_iv_half",
    "C32_capacity",
    "C32_isolation",
    "C32_roundtrip",
    "C32_bounds",
    "C32_removal_needs_hmac",
    "C32_pairing",
    "C32_sync",
    "C32_zero_key_refuted",
    "C32_failed_pairing_rekeys_refuted",
    "C32_replay_refuted",
    "C32_header_only_refuted",
    "C32_long_pairing_key_refuted"
   ],
   "note": "Sessions, uniqueness of key and IV pairs (given that the keys agreed are different), isolation, round trip, bounds, removal and pairing over all histories. Refuted: a hash failure at the end of pairing leaves an all-zero key in use (C32_zero_key_refuted); a failed pairing replaces the key (C32_failed_pairing_rekeys_refuted); replayed and reflected messages are accepted (C32_replay_refuted); a header-only request cannot be decrypted (C32_header_only_refuted); a stored pairing key over 32 bytes overruns the stack (C32_long_pairing_key_refuted)."
  },
  {
   "property": "C33",
   "status": "proved",
   "theorems": [
    "C33_granted",
    "C33_accepted",
    "C33_token",
    "C33_single_use",
    "C33_context",
    "C33_signed_data",
    "C33_header_length_refuted",
    "C33_tag_refuted",
    "C33_global_replay_refuted"
   ],
   "note": "All histories. Refuted: the token length in the header is not checked, so an operation can be given bytes that were not signed (C33_header_length_refuted); the tag is not checked, so a token for one operation authorises another one (C33_tag_refuted); globally signed data can be replayed (C33_global_replay_refuted)."
  },
  {
   "property": "C34",
   "status": "proved",
   "theorems": [
    "C34_offered",
    "C34_in_use",
    "C34_clear_refused",
    "C34_failed_update",
    "C34_write_started",
    "C34_update",
    "C34_lost_reference_refuted",
    "C34_unprotected_image_refuted"
   ],
   "note": "All histories in which updates are made by one thread and no activation comes inside a call that gets the image; both halves of get and clear are separate steps. Refuted without that condition: C34_lost_reference_refuted (a get that returns nothing keeps a reference), C34_unprotected_image_refuted (an image handed out without a reference is erased)."
  },
  {
   "property": "C35",
   "status": "proved",
   "theorems": [
    "C35_log",
    "C35_restart",
    "C35_status",
    "C35_hidden_refuted",
    "C35_partial_write_refuted"
   ],
   "note": "Every history, sector size and count, with failing erases and writes. After a failed write a restart is excluded until a flush or clear succeeded, because C35_hidden_refuted shows that it hides the whole log. Partial writes are excluded, because C35_partial_write_refuted shows that the next read can leave the buffer."
  },
  {
   "property": "C36",
   "status": "proved",
   "theorems": [
    "C36_verify_data_exact",
    "C36_blank_and_value_check_exact",
    "C36_verify_copy_exact",
    "C36_erase_exact",
    "C36_program_and_verify",
    "C36_copy_exact",
    "C36_hash_stream_exact",
    "C36_succeeds"
   ],
   "note": "Block and page programming is modelled as one device write per call; device reads, erases and writes may fail at any address."
  },
  {
   "property": "C38",
   "status": "proved",
   "theorems": [
    "C38_measured_data_window",
    "C38_measured_data_hash",
    "C38_same_algorithm_returns_digest",
    "C38_digest_matches_measured_data"
   ],
   "note": "For every data source kind; callbacks are arbitrary functions meeting the documented contract or failing."
  },
  {
   "property": "C39",
   "status": "proved",
   "theorems": [
    "C39_version"
   ],
   "note": "Every read fault, list and buffer content."
  },
  {
   "property": "C40",
   "status": "proved",
   "theorems": [
    "C40_response_fits",
    "C40_response",
    "C40_small_buffer_refuted",
    "C40_key_at_end_refuted",
    "C40_signature_at_end_refuted"
   ],
   "note": "Layout for all lengths, bounds for all buffer sizes but those refuted: fewer than 9 bytes (C40_small_buffer_refuted), a key or signature that ends one or two bytes before the end of the buffer (C40_key_at_end_refuted, C40_signature_at_end_refuted)."
  },
  {
   "property": "C42",
   "status": "proved",
   "theorems": [
    "C42_never_unbootable",
    "C42_backup",
    "C42_any_request_refuted",
    "C42_page_size_refuted"
   ],
   "note": "Every history of requests and boots, with any call failing, any flash operation torn, any image format. Excluded: a restore of the active image requested while the recovery image is recorded as bad (C42_any_request_refuted shows that both images can then be lost) and flash that fails to report its page size (C42_page_size_refuted)."
  },
  {
   "property": "C43",
   "status": "proved",
   "theorems": [
    "C43_only_acceptable",
    "C43_installed",
    "C43_installed_no_revocation",
    "C43_succeeds",
    "C43_staging_only",
    "C43_end_to_end",
    "C43_digest_refuted",
    "C43_short_digest_refuted"
   ],
   "note": "Every history. Refuted: an updater that needs a digest installs what was staged before a restart without one (C43_digest_refuted); a short digest only covers a prefix of the hash (C43_short_digest_refuted)."
  },
  {
   "property": "C44",
   "status": "proved",
   "theorems": [
    "C44_revocation",
    "C44_never_back",
    "C44_revoked",
    "C44_stale_manifest_refuted"
   ],
   "note": "Every history, with the key manifest of an image stable while another image is loaded for a backup; without that the update revokes up to the old image only (C44_stale_manifest_refuted)."
  },
  {
   "property": "C45",
   "status": "proved",
   "theorems": [
    "C45_verify",
    "C45_flash",
    "C45_ends",
    "C45_accepts",
    "C45_v1_header_refuted",
    "C45_element_outside_refuted"
   ],
   "note": "All formats. For the older format the header is read apart from the bytes that are hashed (C45_v1_header_refuted); C45_flash is the version for flash that does not change meanwhile. Entries need not point into the signed part (C45_element_outside_refuted)."
  },
  {
   "property": "C46",
   "status": "proved",
   "theorems": [
    "C46_lookup",
    "C46_genuine",
    "C46_same",
    "C46_finds",
    "C46_offset_wraps_refuted",
    "C46_unprotected_refuted"
   ],
   "note": "Any tampering with the flash; a successful read of forged data yields the second input with the same hash. Refuted: data offsets beyond 64 KB wrap (C46_offset_wraps_refuted), elements without a hash are not protected (C46_unprotected_refuted)."
  },
  {
   "property": "C48",
   "status": "proved",
   "theorems": [
    "C48_host_only_boots_verified_flash",
    "C48_host_writes_leave_boot_chip",
    "C48_failed_recovery_refuted",
    "C48_rollback_without_pfm_refuted"
   ],
   "note": "Any operations, any failures, any point of a retry loop. Exempt, and refuted as stated: a recovery that fails while programming (C48_failed_recovery_refuted) and the rollback without a PFM (C48_rollback_without_pfm_refuted). While bypass_mode is still retrying the filter is half set up."
  },
  {
   "property": "C49",
   "status": "proved",
   "theorems": [
    "C49_active_pfm_accepts_boot_flash",
    "C49_failed_activation_refuted"
   ],
   "note": "For comparisons of PFMs that are sound (hypotheses H_same, H_full of the theorem). Refuted if activation can fail (C49_failed_activation_refuted)."
  },
  {
   "property": "C50",
   "status": "proved",
   "theorems": [
    "C50_power_on_fails_closed",
    "C50_rollback_after_failed_power_on_refuted",
    "C50_soft_reset_after_failed_power_on_refuted",
    "C50_power_on_clear_failure_refuted",
    "C50_power_on_unsupported_flash_refuted"
   ],
   "note": "Refuted: the operations after a failed power-on give the host unverified flash (C50_rollback_after_failed_power_on_refuted, C50_soft_reset_after_failed_power_on_refuted); the exceptions in the statement are needed (C50_power_on_clear_failure_refuted, C50_power_on_unsupported_flash_refuted)."
  },
  {
   "property": "C51",
   "status": "proved",
   "theorems": [
    "C51_power_on_bypass_only_without_pfm",
    "C51_protection_is_not_dropped"
   ],
   "note": ""
  },
  {
   "property": "C52",
   "status": "proved",
   "theorems": [
    "C52_power_on_boots_valid_flash",
    "C52_valid_update_is_booted",
    "C52_invalid_update_is_not_booted",
    "C52_pending_pfm_takes_effect"
   ],
   "note": ""
  },
  {
   "property": "C41",
   "status": "proved",
   "theorems": [
    "C41_accepted_image",
    "C41_good_image_accepted",
    "C41_hash_and_version",
    "C41_stays_in_header",
    "C41_short_header_refuted",
    "C41_other_format_refuted",
    "C41_endless_refuted",
    "C41_overlapping_sections_refuted"
   ],
   "note": "Flash of at most 1 GiB. Refuted: a header of format 0 that is too short, or a platform identifier of another format, is read out of bounds (C41_short_header_refuted: no signature needed; C41_other_format_refuted); verification need not end (C41_endless_refuted); sections can overlap (C41_overlapping_sections_refuted: why the statement has its exception)."
  },
  {
   "property": "C53",
   "status": "proved",
   "theorems": [
    "C53_apply_writes_sections",
    "C53_apply_succeeds"
   ],
   "note": "The image is a sequence of sections in ascending order, as verification ensures (C41). Short writes and failures at any point included."
  },
  {
   "property": "C47",
   "status": "proved",
   "theorems": [
    "C47_offered",
    "C47_in_use",
    "C47_pending_newer",
    "C47_changes",
    "C47_refused",
    "C47_get",
    "C47_update",
    "C47_signed",
    "C47_post_verify_refuted",
    "C47_lost_reference_refuted",
    "C47_unprotected_manifest_refuted"
   ],
   "note": "Verification and activation do not come inside a call that gets a manifest; without this the property fails (C47_lost_reference_refuted, C47_unprotected_manifest_refuted). A manifest that post_verify refuses stays pending (C47_post_verify_refuted)."
  },
  {
   "property": "C54",
   "status": "proved",
   "theorems": [
    "C54_no_rollback",
    "C54_power_loss_refuted"
   ],
   "note": "Refuted without the condition on the stored region: C54_power_loss_refuted."
  },
  {
   "property": "C55",
   "status": "proved",
   "theorems": [
    "C55_hmac",
    "C55_pieces",
    "C55_no_spurious_failure",
    "C55_busy_engine"
   ],
   "note": "The hash is an arbitrary function with digests of the right length; each call of the engine may fail."
  },
  {
   "property": "C56",
   "status": "proved",
   "theorems": [
    "C56_counter_kdf",
    "C56_hkdf_expand",
    "C56_hkdf_history",
    "C56_cleared",
    "C56_empty_key_refuted",
    "C56_unsupported_hash_refuted",
    "C56_null_salt_refuted",
    "C56_refused_extraction_refuted"
   ],
   "note": "Refuted at the edges: C56_empty_key_refuted, C56_unsupported_hash_refuted, C56_null_salt_refuted, C56_refused_extraction_refuted."
  },
  {
   "property": "C57",
   "status": "proved",
   "theorems": [
    "C57_encode_integer",
    "C57_canonical",
    "C57_decode_integer",
    "C57_decode_all",
    "C57_encode_oid",
    "C57_decode_oid",
    "C57_decode_oid_all",
    "C57_encoded_length",
    "C57_empty_integer_refuted",
    "C57_long_oid_refuted",
    "C57_zero_length_refuted"
   ],
   "note": "X.690 encodings are in Der_Spec, apart from the code. Refuted parts: an INTEGER without contents is read past, a length near 2^32 wraps."
  },
  {
   "property": "C58",
   "status": "proved",
   "theorems": [
    "C58_encode",
    "C58_max_length",
    "C58_decode",
    "C58_decode_all",
    "C58_round_trip",
    "C58_not_canonical_refuted"
   ],
   "note": "Refuted part: other data than DER (negative, padded or empty integers) is accepted."
  },
  {
   "property": "C59",
   "status": "proved",
   "theorems": [
    "C59_encode_public",
    "C59_encode_private",
    "C59_other_lengths",
    "C59_lengths",
    "C59_round_trip",
    "C59_decode_public",
    "C59_decode_private",
    "C59_decode_private_reads",
    "C59_padded_key_refuted",
    "C59_not_canonical_refuted"
   ],
   "note": "Refuted parts: an extra zero byte in a private key leads to a read of one byte after the data; other data than DER is accepted as public key."
  },
  {
   "property": "C60",
   "status": "proved",
   "theorems": [
    "C60_encode",
    "C60_length",
    "C60_decode",
    "C60_length_wraps_refuted"
   ],
   "note": "RFC 4648 is specified by regrouping bits; the RFC test vectors are checked. Refuted part: the announced length wraps for data of a quarter of the address space."
  },
  {
   "property": "C61",
   "status": "proved",
   "theorems": [
    "C61_write",
    "C61_fate",
    "C61_read",
    "C61_status_cleared",
    "C61_block_of_255_refuted",
    "C61_stale_command_refuted",
    "C61_status_mixed_refuted"
   ],
   "note": "C61_write gives the effect of every message in terms of the relation frame; C61_fate shows that frame assigns exactly one fate to every byte sequence whose byte count is below 255; C61_read covers block reads. Refuted: byte count 255, stale command after a refused one, mixed protocol status."
  },
  {
   "property": "C62",
   "status": "proved",
   "theorems": [
    "C62_confined",
    "C62_selected",
    "C62_other_region_erased_refuted",
    "C62_init_unchecked_refuted",
    "C62_init_wild_refuted"
   ],
   "note": "C62_confined for all histories when at most the first region is in flash; C62_selected for single writes in any reachable state. With several flash regions the property fails (C62_other_region_erased_refuted, C62_init_unchecked_refuted, C62_init_wild_refuted)."
  },
  {
   "property": "C63",
   "status": "proved",
   "theorems": [
    "C63_push",
    "C63_read_back",
    "C63_wraps",
    "C63_jump_refuted",
    "C63_short_write_refuted"
   ],
   "note": "C63_push, C63_read_back, C63_wraps. Writing a flash region from another offset than 0 and short flash writes are refuted."
  },
  {
   "property": "C64",
   "status": "proved",
   "theorems": [
    "C64_refines",
    "C64_faults",
    "C64_mode",
    "C64_failed_write_changes_nothing_refuted",
    "C64_mode_while_busy_refuted",
    "C64_bounds_refuted"
   ],
   "note": "C64_refines (no failures), C64_faults (arbitrary failures), C64_mode (reported mode is the mode of the device while no transfer fails). Refuted: a failed write may have written (C64_failed_write_changes_nothing_refuted), the mode switch is not checked against a busy device (C64_mode_while_busy_refuted), the bounds check wraps in a 32-bit size_t (C64_bounds_refuted). SFDP parsing, block protection, reset and power down are not modelled."
  },
  {
   "property": "C37",
   "status": "proved",
   "theorems": [
    "C37_packets",
    "C37_fits",
    "C37_contiguous",
    "C37_receive",
    "C37_interleaved_refuted",
    "C37_packet_size_refuted",
    "C37_valid_processed_refuted"
   ],
   "note": "C37_packets, C37_fits, C37_contiguous, C37_receive. Refuted: messages are interleaved when the bus is busy (C37_interleaved_refuted); packet sizes above the buffer are not rejected (C37_packet_size_refuted); a good packet after an overflow is dropped (C37_valid_processed_refuted)."
  },
  {
   "property": "C65",
   "status": "proved",
   "theorems": [
    "C65_refines",
    "C65_boot",
    "C65_segments",
    "C65_isolated",
    "C65_counter",
    "C65_clear",
    "C65_clear_crash",
    "C65_counter_read_error_refuted",
    "C65_counter_power_refuted",
    "C65_clear_repeated_refuted",
    "C65_clear_read_error_refuted"
   ],
   "note": "C65_refines, C65_boot (no failures); C65_segments, C65_isolated (any failures); C65_counter (atomic writes); C65_clear, C65_clear_crash. Refuted: a read error or a power failure resets the counter (C65_counter_read_error_refuted, C65_counter_power_refuted); a clear is forgotten when a segment cannot be erased or the header not be read (C65_clear_repeated_refuted, C65_clear_read_error_refuted)."
  },
  {
   "property": "C66",
   "status": "proved",
   "theorems": [
    "C66_in_bounds",
    "C66_policy",
    "C66_counter",
    "C66_counter_found",
    "C66_huge_oid_refuted",
    "C66_token",
    "C66_not_locked",
    "C66_round_trip",
    "C66_unlock",
    "C66_signed",
    "C66_accepted",
    "C66_single_use",
    "C66_cleared",
    "C66_counter_length_refuted",
    "C66_token_length_refuted"
   ],
   "note": "C66_in_bounds, C66_policy, C66_counter, C66_counter_found (parsers); C66_token, C66_not_locked, C66_round_trip (tokens); C66_unlock, C66_signed, C66_accepted, C66_single_use, C66_cleared (histories). Refuted: C66_huge_oid_refuted, C66_counter_length_refuted, C66_token_length_refuted."
  },
  {
   "property": "C67",
   "status": "proved",
   "theorems": [
    "C67_hash",
    "C67_messages",
    "C67_available",
    "C67_th_bounds_refuted",
    "C67_few_engines_refuted",
    "C67_failed_update_refuted"
   ],
   "note": "C67_hash, C67_messages, C67_available. After a failed update of a transcript nothing is claimed about it until it is reset or finished. Refuted: C67_th_bounds_refuted, C67_few_engines_refuted, C67_failed_update_refuted."
  },
  {
   "property": "C68",
   "status": "proved",
   "theorems": [
    "C68_no_rollback",
    "C68_trusted",
    "C68_revoked",
    "C68_keys",
    "C68_update",
    "C68_check_failure_refuted",
    "C68_restart_refuted",
    "C68_lost_key_refuted"
   ],
   "note": "C68_no_rollback, C68_trusted, C68_revoked, C68_keys, C68_update. The keystore may fail to save but, for revocation, not lose its key; C68_update assumes that the key can be checked at the activation and that there is no restart before the update. Refuted without these: C68_check_failure_refuted, C68_restart_refuted, C68_lost_key_refuted."
  },
  {
   "property": "C69",
   "status": "proved",
   "theorems": [
    "C69_nonces",
    "C69_replay",
    "C69_keys",
    "C69_delivered",
    "C69_conversation",
    "C69_finish",
    "C69_end",
    "C69_started",
    "C69_established",
    "C69_ended",
    "C69_memory",
    "C69_forgery_refuted",
    "C69_overflow_refuted",
    "C69_error_reply_refuted",
    "C69_padding_refuted"
   ],
   "note": "C69_nonces, C69_replay, C69_keys, C69_delivered, C69_conversation, C69_finish, C69_end, C69_started, C69_established, C69_ended, C69_memory. The key derivation must give distinct keys and salts of 12 bytes. C69_memory needs max_response to count from the payload, which is not so over DOE: C69_overflow_refuted. Also refuted: C69_forgery_refuted, C69_error_reply_refuted, C69_padding_refuted."
  },
  {
   "property": "C70",
   "status": "proved",
   "theorems": [
    "C70_healthy",
    "C70_measured",
    "C70_consistent",
    "C70_recorded",
    "C70_persists",
    "C70_reset",
    "C70_handled",
    "C70_checked",
    "C70_lost_refuted",
    "C70_stale_refuted",
    "C70_digest_refuted"
   ],
   "note": "C70_healthy, C70_measured, C70_consistent, C70_recorded, C70_persists, C70_reset. C70_recorded and C70_persists are for the synchronous manager; C70_recorded assumes that intrusions can be recorded. Refuted otherwise: C70_lost_refuted, C70_stale_refuted, C70_digest_refuted."
  },
  {
   "property": "C71",
   "status": "proved",
   "theorems": [
    "C71_atomic",
    "C71_calls",
    "C71_returned",
    "C71_exactly_once",
    "C71_handler_sees",
    "C71_section_sees",
    "C71_no_lost_event",
    "C71_cancel_refuted"
   ],
   "note": "C71_atomic, C71_calls, C71_returned, C71_exactly_once, C71_handler_sees, C71_section_sees, C71_no_lost_event, for tasks started once and events submitted for registered handlers. Refuted if a caller notifies a null or unknown handler: C71_cancel_refuted."
  },
  {
   "property": "C72",
   "status": "proved",
   "theorems": [
    "C72_accepted",
    "C72_arguments",
    "C72_unambiguous",
    "C72_reads",
    "C72_overread_refuted"
   ],
   "note": "Accepted exactly if well formed, whatever follows in the buffer; the arguments of the unsealing are the encoded fields; one reading per message; reads end at most one byte behind the message. The refutation is that one byte: the check that should cover the HMAC length looks at the ciphertext again."
  },
  {
   "property": "C73",
   "status": "proved",
   "theorems": [
    "C73_unseal",
    "C73_key",
    "C73_operation",
    "C73_chain",
    "C73_chain_valid",
    "C73_executed",
    "C73_accepts",
    "C73_reset"
   ],
   "note": "C73_unseal, C73_key, C73_operation, C73_chain, C73_chain_valid, C73_executed, C73_accepts, C73_reset. The steps are those of the atomic event task (C71); error identifiers of operations are bytes."
  },
  {
   "property": "C74",
   "status": "proved",
   "theorems": [
    "C74_unseal",
    "C74_refused",
    "C74_request",
    "C74_pkcs15_refused"
   ],
   "note": "C74_unseal, C74_refused, C74_request, C74_pkcs15_refused. PCR values have their digest length (at most 64) and HMACs 32 bytes, which the PCR store and the hash engine guarantee."
  },
  {
   "property": "C75",
   "status": "proved",
   "theorems": [
    "C75_ladder",
    "C75_order",
    "C75_reaches_image",
    "C75_answered",
    "C75_counter",
    "C75_boot",
    "C75_quiet",
    "C75_once"
   ],
   "note": "C75_ladder, C75_order, C75_reaches_image, C75_answered, C75_counter, C75_boot, C75_quiet, C75_once. Order and progress are for non-negative settings; the counter is unbounded and C75_counter bounds it."
  },
  {
   "property": "C76",
   "status": "proved",
   "theorems": [
    "C76_cleared",
    "C76_success",
    "C76_complete",
    "C76_complete_refuted"
   ],
   "note": "C76_cleared, C76_success, C76_complete, C76_complete_refuted. Success when everything was cleared is not reported if a device has only bypass and platform manifests (refuted)."
  },
  {
   "property": "C77",
   "status": "proved",
   "theorems": [
    "C77_record",
    "C77_unambiguous",
    "C77_length",
    "C77_block",
    "C77_block_length",
    "C77_summary"
   ],
   "note": "C77_record, C77_unambiguous, C77_length, C77_block, C77_block_length, C77_summary. At most 254 measurements, seven-bit value types, values below 65533 bytes (nothing in the code checks these)."
  },
  {
   "property": "C78",
   "status": "proved",
   "theorems": [
    "C78_delivered",
    "C78_framed",
    "C78_refused",
    "C78_discovery",
    "C78_init",
    "C78_padding_refuted",
    "C78_error_reply_refuted"
   ],
   "note": "C78_padding_refuted and C78_error_reply_refuted are witnesses: padding is not cleared, and an error reply of the SPDM responder for a secured request that cannot be sealed is not where the frame expects it"
  },
  {
   "property": "C79",
   "status": "proved",
   "theorems": [
    "C79_loaded",
    "C79_no_leak",
    "C79_checked",
    "C79_power_loss",
    "C79_erased_refuted",
    "C79_reported"
   ],
   "note": "C79_erased_refuted is a witness: in a store of fixed-size keys without protection an erased key loads as bytes of erased flash. Missing keys are proved for stores of keys of any length"
  },
  {
   "property": "C80",
   "status": "proved",
   "theorems": [
    "C80_only",
    "C80_works",
    "C80_validate",
    "C80_left",
    "C80_request"
   ],
   "note": "UUIDs longer than 16 bytes are excluded by the buffer the device handler is given"
  },
  {
   "property": "C81",
   "status": "proved",
   "theorems": [
    "C81_expires",
    "C81_reset",
    "C81_kept",
    "C81_allowed",
    "C81_after",
    "C81_no_deadlock",
    "C81_deadlock_refuted"
   ],
   "note": "C81_deadlock_refuted is a witness: an expiry during a renewal stops both tasks for ever. Freedom from deadlock is proved for all calls while no timer expires"
  },
  {
   "property": "C82",
   "status": "proved",
   "theorems": [
    "C82_one_store",
    "C82_broken",
    "C82_count",
    "C82_erase_all",
    "C82_max_length",
    "C82_flash_size",
    "C82_missing_store_refuted",
    "C82_flash_size_refuted"
   ],
   "note": "C82_missing_store_refuted and C82_flash_size_refuted: a NULL entry is checked only by calls on blocks, and the size wraps"
  },
  {
   "property": "C83",
   "status": "proved",
   "theorems": [
    "C83_start",
    "C83_lock",
    "C83_locked",
    "C83_unprotected",
    "C83_calls",
    "C83_fits",
    "C83_answers",
    "C83_errors",
    "C83_wrong_nonce",
    "C83_nonce_reused_refuted",
    "C83_error_size_refuted",
    "C83_locked_without_nonce_refuted"
   ],
   "note": "C83_nonce_reused_refuted: starting does not use up the nonce; C83_locked_without_nonce_refuted and C83_error_size_refuted are witnesses too"
  },
  {
   "property": "C84",
   "status": "proved",
   "theorems": [
    "C84_key_prog",
    "C84_go_stop",
    "C84_refused",
    "C84_errors",
    "C84_query",
    "C84_query_answered",
    "C84_key_left_refuted",
    "C84_old_bytes_refuted",
    "C84_query_overrun_refuted"
   ],
   "note": "C84_key_left_refuted: a KEY_PROG of a wrong length leaves its key in the message; C84_old_bytes_refuted and C84_query_overrun_refuted are witnesses too"
  },
  {
   "property": "C85",
   "status": "proved",
   "theorems": [
    "C85_prepare",
    "C85_first",
    "C85_in_time",
    "C85_starved_refuted"
   ],
   "note": "C85_starved_refuted: a first handler that is always ready keeps all others from running"
  },
  {
   "property": "C86",
   "status": "proved",
   "theorems": [
    "C86_handler",
    "C86_sealed",
    "C86_sealed_answer",
    "C86_plain",
    "C86_refused",
    "C86_supported"
   ],
   "note": "the handlers are assumed to keep the flag for encryption and the largest response of the message (keeps_protection)"
  },
  {
   "property": "C87",
   "status": "proved",
   "theorems": [
    "C87_count",
    "C87_unknown",
    "C87_lost_refuted",
    "C87_shift_refuted"
   ],
   "note": "C87_lost_refuted: concurrent increments can be lost; C87_shift_refuted: a shift into the sign bit from 32768 on"
  },
  {
   "property": "C88",
   "status": "proved",
   "theorems": [
    "C88_read",
    "C88_status",
    "C88_size_refuted",
    "C88_not_flash_refuted"
   ],
   "note": "C88_size_refuted: a size that is not a number of whole blocks is accepted, and erasing the last block writes past the memory; C88_not_flash_refuted: writes need no erase"
  },
  {
   "property": "C89",
   "status": "proved",
   "theorems": [
    "C89_calls",
    "C89_result",
    "C89_works",
    "C89_timeout",
    "C89_stuck_refuted"
   ],
   "note": "C89_stuck_refuted: without a timeout it waits for as long as progress is reported"
  }
 ]
}