{"id": "C01", "title": "RAM log keeps exactly the newest entries in order", "statement": "After any sequence of create_entry and clear calls on an in-memory log with room for N entries, reading the log returns the last min(n,N) entries created since the last clear, oldest first, each with its original data, with consecutive entry identifiers.", "quantifier": "every capacity N, every entry size, every finite sequence of create/clear calls with arbitrary payloads", "why_tests_cant": "The circular buffer has unboundedly many wrap states; a test visits a few.", "anchors": ["core/logging/logging_memory.c: logging_memory_create_entry, logging_memory_clear, logging_memory_copy_entries, logging_memory_read_contents"]}
{"id": "C02", "title": "RAM log windowed reads and size agree with the full stream", "statement": "read_contents(offset, length) returns exactly the bytes of the complete log stream in [offset, offset+length) clipped to its end, and get_size equals the length of that stream.", "quantifier": "every log state reachable by create/clear, every offset and every buffer length", "why_tests_cant": "Clients read the log in arbitrary chunks; all (offset,length) pairs crossing header/body/wrap boundaries cannot be enumerated.", "anchors": ["core/logging/logging_memory.c: logging_memory_read_contents, logging_memory_get_size, logging_memory_copy_entries", "core/common/buffer_util.c: buffer_copy"]}
{"id": "C03", "title": "RAM log survives a warm reset", "statement": "Re-initialising the log state on the same memory after a warm reset yields a log with the same readable entries in the same order, and the next entry created gets the next identifier and overwrites the oldest entry.", "quantifier": "every history of create/clear calls before the reset", "why_tests_cant": "The recovery scan depends on where the wrap point lies and on the identifiers present; any history can precede the reset.", "anchors": ["core/logging/logging_memory.c: logging_memory_find_last_entry, logging_memory_init_state_from_buffer"]}
{"id": "C04", "title": "Stored state words survive corruption of any one copy", "statement": "A state word saved in three copies is read back exactly whatever the contents of any single one of the three copies.", "quantifier": "all 2^16 state words, all corrupting values, all three positions", "why_tests_cant": "2^34 combinations of word, position and damage.", "anchors": ["core/state_manager/state_manager.c: state_manager_read_state_bits"]}
{"id": "C05", "title": "Non-volatile state is durable", "statement": "After any sequence of state changes each followed by a successful store, re-initialising from flash (reboot) yields exactly the last stored state.", "quantifier": "every sequence of state values, any number of sector wraps, and every number of intervening reboots", "why_tests_cant": "Two sectors of hundreds of slots each wrap; histories are unbounded.", "anchors": ["core/state_manager/state_manager.c: state_manager_store_non_volatile_state, state_manager_init_state, state_manager_init_multi_byte_state"]}
{"id": "C06", "title": "State store is crash atomic", "statement": "If power is lost at any flash operation during a state store, re-initialisation succeeds and yields either the previous or the new state, never anything else.", "quantifier": "every prior history, every new state, every crash point among the flash operations of the store", "why_tests_cant": "Tests cannot cut power at every point of every history.", "anchors": ["core/state_manager/state_manager.c: state_manager_store_non_volatile_state, state_manager_init_state"]}
{"id": "C07", "title": "Block store returns what was written and touches nothing else", "statement": "Writing data to block id of a contiguous-block flash store and reading the same id returns exactly that data; every other block id reads as before, and no byte outside the sectors of that block changes.", "quantifier": "every store geometry (block size, count, direction, fixed/variable, with/without hash), every id and data", "why_tests_cant": "The geometry arithmetic (sector/page rounding, growing up or down) has unbounded parameter combinations.", "anchors": ["core/flash/flash_store_contiguous_blocks.c: flash_store_contiguous_blocks_write_common, flash_store_contiguous_blocks_read_common"]}
{"id": "C08", "title": "Block store never returns silently damaged or half-written data", "statement": "With hashing, a read that succeeds returns data whose stored digest matches; an interrupted variable-length write (power loss at any flash operation) never reads back as anything but the old data, the complete new data, or an error.", "quantifier": "every store geometry, prior content, data and crash point", "why_tests_cant": "Crash points and corruptions cannot be enumerated.", "anchors": ["core/flash/flash_store_contiguous_blocks.c: flash_store_contiguous_blocks_write_common, flash_store_contiguous_blocks_read_common, flash_store_contiguous_blocks_read_header"]}
{"id": "C09", "title": "Byte-array counters are exact big-endian arithmetic", "statement": "Incrementing or decrementing a byte array yields the big-endian number plus or minus one; at the boundary it either rolls over or reports the boundary and leaves the array unchanged; comparing two arrays orders them as the numbers they represent, whatever their leading zeros.", "quantifier": "every byte array of every length", "why_tests_cant": "Lengths and values are unbounded.", "anchors": ["core/common/common_math.c: common_math_increment_byte_array, common_math_decrement_byte_array, common_math_compare_array"]}
{"id": "C10", "title": "Bit-array operations act on exactly one bit and counts agree", "statement": "Setting or clearing bit i of an array changes bit i only; testing returns it; population counts, leading-run counts and shifts agree with the array viewed as a bit sequence.", "quantifier": "every array, every bit index, every shift distance", "why_tests_cant": "Unbounded lengths and indices.", "anchors": ["core/common/common_math.c: common_math_set_bit_in_array, common_math_clear_bit_in_array, common_math_is_bit_set_in_array, common_math_get_num_bits_set_in_array, common_math_right_shift_array, common_math_left_shift_array"]}
{"id": "C11", "title": "Segmented copy equals a window of the concatenation", "statement": "Copying a series of segments through buffer_copy with a shared offset and remaining length yields exactly the window [offset, offset+length) of the concatenation of the segments.", "quantifier": "every list of segments, every offset and length", "why_tests_cant": "Unbounded number of segments and boundary alignments.", "anchors": ["core/common/buffer_util.c: buffer_copy"]}
{"id": "C12", "title": "AES key wrap round trip and integrity", "statement": "Unwrapping a wrapped key under the same key returns the original data; unwrapping fails with an integrity error, and the output buffer is zero, exactly when the recovered check value differs from the RFC 3394 constant.", "quantifier": "every data length that is a multiple of 8, every data, every block cipher", "why_tests_cant": "All keys, data lengths and tampered inputs.", "anchors": ["core/crypto/aes_key_wrap.c: aes_key_wrap_wrap, aes_key_wrap_unwrap"]}
{"id": "C13", "title": "Padded AES key wrap round trip", "statement": "Unwrapping with padding returns exactly the original bytes and length for every non-empty input; any input whose recovered length field or padding is inconsistent is rejected and the output zeroed.", "quantifier": "every data length from 1 up, every data, every block cipher", "why_tests_cant": "All lengths modulo 8, including the single block special case, and all tampered inputs.", "anchors": ["core/crypto/aes_key_wrap_with_padding.c: aes_key_wrap_with_padding_wrap, aes_key_wrap_with_padding_unwrap"]}
{"id": "C14", "title": "Packet checksum detects damage and is incremental", "statement": "The SMBus packet error code computed in pieces equals the code of the whole; any change confined to one byte, or to two adjacent bytes spanning at most eight bits, changes the code.", "quantifier": "every message of every length, every damage of the stated class", "why_tests_cant": "Unbounded message space.", "anchors": ["core/crypto/checksum.c: checksum_crc8, checksum_init_smbus_crc8, checksum_update_smbus_crc8"]}
{"id": "C15", "title": "MCTP packet construct/interpret round trip and bounds", "statement": "Interpreting a constructed packet at its destination returns exactly the fields and payload it was built from; interpret never reports a payload outside the received bytes, and a packet with a trailing PEC is accepted only if the PEC is right.", "quantifier": "every payload length up to the maximum, every field value, every received byte string", "why_tests_cant": "All received byte strings, including malformed ones.", "anchors": ["core/mctp/mctp_base_protocol.c: mctp_base_protocol_interpret, mctp_base_protocol_construct"]}
{"id": "C16", "title": "MCTP message segmentation is reassembled exactly", "statement": "A message of any size up to the maximum, split into packets for any supported transmission unit, is delivered to the request handler as exactly that message, once, when its packets are processed in order.", "quantifier": "every message of length 1..4096, every transmission unit, every prior assembly state", "why_tests_cant": "Sizes times units times prior states.", "anchors": ["core/mctp/mctp_interface.c: mctp_interface_generate_packets_from_payload, mctp_interface_process_packet"]}
{"id": "C17", "title": "MCTP delivers only complete in-sequence messages", "statement": "For every sequence of received packets, every message handed to the request handler is the concatenation of the payloads of a start packet and following packets from the same source, tag and owner with consecutive sequence numbers, is at most the maximum message size, and packets that are malformed, misaddressed or belong to another message never change the message being assembled.", "quantifier": "every finite sequence of arbitrary received packets", "why_tests_cant": "Adversarial packet interleavings are unbounded.", "anchors": ["core/mctp/mctp_interface.c: mctp_interface_process_packet, mctp_interface_reset_message_assembly"]}
{"id": "C18", "title": "MCTP in-place packetisation never overwrites unsent data", "statement": "Packetising a response inside the shared message buffer produces the same packets as packetising from a separate copy, i.e. no packet write destroys response bytes that have not been sent yet.", "quantifier": "every response length up to 4096 and every transmission unit of at least 64", "why_tests_cant": "Overlap depends on the unit and length; off-by-one overlaps only show at particular sizes.", "anchors": ["core/mctp/mctp_interface.c: mctp_interface_handle_request_message, mctp_interface_generate_packets_from_payload", "core/mctp/mctp_interface.h: struct mctp_interface_state"]}
{"id": "C19", "title": "A late MCTP response never touches a completed request", "statement": "Once a requester has timed out and returned, no response is written through its response descriptor, whatever point of the receive path that response had reached; a response whose check happens when no request is outstanding is dropped.", "quantifier": "every interleaving of the requester and the receiver", "why_tests_cant": "The failing schedule needs a timeout between two specific lock regions.", "anchors": ["core/mctp/mctp_interface.c: mctp_interface_send_request_message, mctp_interface_is_expected_response, mctp_interface_handle_response_message"]}
{"id": "C20", "title": "PCR value is the extend chain of the measurements", "statement": "The computed PCR is the left fold of extend over the current measurement digests starting from zero, every intermediate value is recorded, and updating or invalidating one measurement changes that digest only.", "quantifier": "every number of measurements, every history of updates, every hash function", "why_tests_cant": "Unbounded histories.", "anchors": ["core/attestation/pcr.c: pcr_compute, pcr_update_digest, pcr_invalidate_measurement"]}
{"id": "C21", "title": "Constant measurements never change", "statement": "Once a measurement has been recorded as constant no later update or invalidation changes its digest, version or configuration; such calls report an error.", "quantifier": "every later history of PCR store calls", "why_tests_cant": "Unbounded histories of mixed calls.", "anchors": ["core/attestation/pcr.c: pcr_const_update_digest, pcr_update_digest_common, pcr_invalidate_measurement"]}
{"id": "C22", "title": "TCG and attestation logs can be read in any chunks", "statement": "Reading the TCG event log or the attestation log from any offset with any buffer length returns exactly that window of the complete log, and the attestation log size matches the complete log.", "quantifier": "every set of PCRs and measurements, every offset and buffer length", "why_tests_cant": "Chunk boundaries can fall anywhere in nested headers and data.", "anchors": ["core/attestation/pcr.c: pcr_get_tcg_log, pcr_get_measurement_data_internal", "core/attestation/pcr_store.c: pcr_store_get_tcg_log, pcr_store_get_attestation_log, pcr_store_get_attestation_log_size"]}
{"id": "C23", "title": "Heap blocks never overlap and no memory is lost", "statement": "Blocks handed out by the heap are inside the heap, at least as large as requested and mutually disjoint; free plus allocated space always accounts for the whole heap; free blocks are never adjacent; freeing everything restores one block covering the heap; a request is refused only if no free block fits; no call changes the contents of other live blocks; zeroed allocations are zero and reallocation keeps the contents.", "quantifier": "every heap size and location, every size_t width and header size, every sequence of malloc/calloc/realloc/free of live blocks and of writes inside live blocks", "why_tests_cant": "Allocation histories are unbounded.", "anchors": ["core/memory_mgmt/heap_with_defrag.c: heap_with_defrag_init, heap_with_defrag_allocate, heap_with_defrag_allocate_zeroize, heap_with_defrag_reallocate, heap_with_defrag_free, heap_with_defrag_get_stats"]}
{"id": "C24", "title": "Heap requests are refused or served in full, up to the integer limit", "statement": "A request that stays clear of the integer limit (size + 3 + control block size representable) is refused or given a block at least that large inside the heap. Beyond that limit the code has no check: rounding, adding the control block size and multiplying item count by size all wrap, and the heap returns blocks that are too small or outside the heap.", "quantifier": "every request size and item count", "why_tests_cant": "The failing values are at the edge of a 2^32/2^64 space.", "anchors": ["core/memory_mgmt/heap_with_defrag.c: heap_with_defrag_allocate, heap_with_defrag_allocate_zeroize"]}
{"id": "C25", "title": "Observers are notified exactly once, in registration order", "statement": "After any sequence of add and remove calls, including failed ones, a notification calls exactly the observers currently registered that have a handler, each once, in order of registration; each registration holds one list entry and releasing the object frees them all.", "quantifier": "every sequence of add/remove calls", "why_tests_cant": "Unbounded registration histories.", "anchors": ["core/common/observable.c: observable_add_observer, observable_remove_observer, observable_notify_observers"]}
{"id": "C26", "title": "Key cache hands out each generated key at most once", "statement": "Every key returned was stored and readable; keys are handed out in the order in which they were stored, never twice, to any one requestor at most as many as its credits plus the keys added meanwhile; a requestor that asked for fewer keys than its credits since the cache was full is never turned away; the cache never holds more than its capacity, and full/empty are reported exactly.", "quantifier": "every geometry, every initial content of the flash blocks, every history of add, remove, periodic task, reinitialisation and power cycle, every outcome of every flash operation", "why_tests_cant": "Circular index states and flash validity patterns are combinatorial.", "anchors": ["core/keystore/key_cache_flash.c: key_cache_flash_add, key_cache_flash_remove, key_cache_flash_arrange_key_info"]}
{"id": "C27", "title": "Full flash validation accounts for every byte", "statement": "If full-flash validation succeeds, every image of every firmware component authenticates (signature or hash over exactly its regions) and every byte of the flash lies in an image region, in a declared read/write region, or equals the unused byte value. A flash meeting this is accepted when regions are separate and no read fails.", "quantifier": "every flash content, every list of images and read/write regions", "why_tests_cant": "Region layouts are unbounded; a gap missed by off-by-one is not visible on a fixed layout.", "anchors": ["core/host_fw/host_fw_util.c: host_fw_full_flash_verification_multiple_fw, host_fw_find_next_flash_region"]}
{"id": "C28", "title": "Image-list comparison reports every difference", "statement": "Two region lists compare as equal exactly when they hold the same regions in any order; two firmware image lists compare as equal only if they have the same regions, flags and keys and, for every image, the same full authenticator value; the comparison always ends.", "quantifier": "every pair of image lists", "why_tests_cant": "Lists with images of different authenticator lengths are never in fixed fixtures.", "anchors": ["core/host_fw/host_fw_util.c: host_fw_are_images_different, host_fw_are_regions_different"]}
{"id": "C29", "title": "Read/write data migration copies exactly the declared regions", "statement": "After successful migration every byte of every declared region of the destination flash equals the source byte, the rest of the erase blocks touched is blank and nothing else changed; mismatching region lists are refused with the destination regions left blank. Restoring read/write data gives every region what its failure property asks for, and restoring a device copies every image region, blanks all other read-only space and keeps read/write data in blocks of its own.", "quantifier": "every flash content and every region list", "why_tests_cant": "Region layouts and contents are unbounded.", "anchors": ["core/host_fw/host_fw_util.c: host_fw_migrate_read_write_data(_multiple_fw), host_fw_restore_flash_device, host_fw_restore_read_write_data(_multiple_fw)"]}
{"id": "C30", "title": "Read/write filter covers every declared region", "statement": "After configuring the SPI filter every declared read/write region is writable and nothing else is; if a filter command fails midway, still nothing outside the declared regions is writable.", "quantifier": "every list of firmware images and regions", "why_tests_cant": "Merging of contiguous regions depends on unbounded layouts.", "anchors": ["core/host_fw/host_fw_util.c: host_fw_config_spi_filter_read_write_regions, host_fw_config_spi_filter_read_write_regions_multiple_fw"]}
{"id": "C31", "title": "Flash updater never writes outside its region", "statement": "Whatever sequence of prepare and write calls is made, only bytes inside the update region change, and the data lands in order without gaps.", "quantifier": "every region, every sequence of calls with arbitrary lengths", "why_tests_cant": "Call sequences and lengths are unbounded.", "anchors": ["core/flash/flash_updater.c: flash_updater_prepare_for_update, flash_updater_write_update_data, flash_updater_apply_update_offset"]}
{"id": "C32", "title": "Encrypted sessions never reuse an initialisation vector", "statement": "Messages are encrypted and accepted only with the key of an established session with their peer; each peer has at most one session and calls about one peer never touch another's; provided the keys agreed are different, no key and initialisation vector pair is used twice, and the device's vectors stay in its half of the range; an encrypted message decrypts to the original at the other end, and encryption never writes past the room given; removing an established session on request and pairing require the right HMAC.", "quantifier": "every history of session operations and messages, with every outcome of every cryptographic, memory and key store operation", "why_tests_cant": "Histories and counters are unbounded.", "anchors": ["core/cmd_interface/session_manager.c: session_manager_encrypt_message, session_manager_add_session, session_manager_reset_session, session_manager_setup_paired_session", "core/cmd_interface/session_manager_ecc.c: session_manager_ecc_establish_session"]}
{"id": "C33", "title": "Authorisation tokens are single use and authorisation is not bypassed", "statement": "An operation that needs a challenge is authorised only by data that embeds the currently active, unexpired token and carries a valid authority signature over everything up to the signature, and such data is accepted if the engines work; if the nonces are distinct, the same data is never accepted twice. A token is the operation's tag, padding, a nonce and the device's signature. An operation is given a context to run in only if its own authorisation agreed and its data was found valid; unknown, forbidden and unconfigured operations never are. With a truthful header the data given to the operation is part of what was signed.", "quantifier": "every history of requests, submitted byte strings and waiting times, every list of operations, signature scheme, and failure of the random generator, clock and engines", "why_tests_cant": "Replay histories and malformed inputs are unbounded.", "anchors": ["core/common/auth_token.c: auth_token_new_token, auth_token_verify_data, auth_token_invalidate", "core/common/authorization_challenge.c: authorization_challenge_authorize", "core/common/authorized_data_with_aad.c", "core/cmd_interface/cmd_authorization.c: cmd_authorization_authorize_operation", "core/common/authorization_global.c: authorization_global_authorize"]}
{"id": "C34", "title": "Only verified recovery images are offered", "statement": "A recovery image obtained from the manager was successfully verified by an activation (or at start), and its flash region has not changed since; no call erases or rewrites a region whose image somebody has, and clearing is refused exactly then. With two regions a failed or abandoned update leaves the offered image as it is. After a complete update with a good image, the image on offer begins with the data written, in order.", "quantifier": "every history of get, free, clear, write, activate and erase calls, interleaved with get and free calls, every flash fault and verification result, one and two regions", "why_tests_cant": "Histories are unbounded.", "anchors": ["core/recovery/recovery_image_manager.c: recovery_image_manager_get_active_recovery_image, recovery_image_manager_clear_recovery_image_region, recovery_image_manager_activate_recovery_image"]}
{"id": "C35", "title": "Flash log keeps entries across wraps and reboots", "statement": "After any sequence of create, flush and reboot, the log reads back the newest entries in order; entries lost are always the oldest ones, and nothing flushed is lost by a reboot.", "quantifier": "every history of create/flush/clear/reboot", "why_tests_cant": "Sixteen sectors of variable size entries; histories are unbounded.", "anchors": ["core/logging/logging_flash.c: logging_flash_create_entry, logging_flash_save_buffer, logging_flash_init_state, logging_flash_read_contents"]}
{"id": "C36", "title": "Chunked flash comparison, verification and copy are exact", "statement": "Blank checks, content checks, copies and verify-copies of a flash region succeed exactly when every byte satisfies the check, independently of how the region is split into 256-byte reads.", "quantifier": "every address, length and flash content", "why_tests_cant": "Lengths not multiple of the chunk size and late mismatches are unbounded.", "anchors": ["core/flash/flash_util.c: flash_blank_check, flash_value_check, flash_verify_data, flash_copy_ext, flash_verify_copy_ext"]}
{"id": "C38", "title": "Measured data, its windows and its hash agree", "statement": "Reading the measured data of a measurement from any offset with any length returns exactly that window of the data (event type and version prefixes included) and its total length; hashing it with another algorithm hashes exactly those bytes, and a digest recorded from a buffer is the hash of the measured data when that buffer is given as the data.", "quantifier": "every kind of data source, offset, length, algorithm and engine or flash fault", "why_tests_cant": "Window boundaries can fall in either prefix or in the data, for any data length.", "anchors": ["core/attestation/pcr.c: pcr_get_measurement_data_internal, pcr_hash_measurement_data, pcr_update_buffer_common"]}
{"id": "C39", "title": "The firmware version found is on flash and is the preferred one", "statement": "Determining the firmware version from flash returns the last supported version in the list whose identifier string is at its address on flash; it reports an unsupported version only if no listed identifier is on flash; it never reads or writes outside its buffer.", "quantifier": "every flash content, list of versions of any lengths and addresses, address offset and read fault", "why_tests_cant": "The read of one address is shared by versions of different lengths in any order; fixed lists do not cover the combinations.", "anchors": ["core/host_fw/host_fw_util.c: host_fw_determine_version, host_fw_determine_offset_version"]}
{"id": "C40", "title": "Key exchange responses stay within the buffer", "statement": "The response to a key exchange is the public key, the signature and the HMAC of the certificate, each after its length, and is never written past the room the caller gave; the session keys are derived from the shared secret and the nonces of the setup.", "quantifier": "every request, key, signature and buffer size, and every failure", "why_tests_cant": "Lengths of keys, signatures and buffers are independent; the failing combinations are single values.", "anchors": ["core/cmd_interface/session_manager_ecc.c: session_manager_ecc_establish_session", "core/cmd_interface/cerberus_protocol_optional_commands.h: CERBERUS_PROTOCOL_KEY_EXCHANGE_TYPE_0_RESPONSE_MAX_KEY_DATA, CERBERUS_PROTOCOL_KEY_EXCHANGE_TYPE_0_RESPONSE_MAX_SIG_DATA, CERBERUS_PROTOCOL_KEY_EXCHANGE_TYPE_0_RESPONSE_MAX_HMAC_DATA"]}
{"id": "C42", "title": "A firmware update never leaves the device unbootable", "statement": "On a device with a recovery image that starts with a usable active or recovery image, after any sequence of update, recovery, restore, revocation and boot requests, with any call failing and any flash operation torn at any point, the active or the recovery image is complete, valid and not revoked; the recovery image is, unless the updater has recorded it as bad. On a device with only a backup region, the active image or the backup is usable after an update however it ends.", "quantifier": "every sequence of requests, every pattern of failures, torn flash operations and power losses, every image format, flash layout, and contents", "why_tests_cant": "The crash points multiply with the histories of the recovery flag and the revocation state; tests mock single failures.", "anchors": ["core/firmware/firmware_update.c: firmware_update_run_update, firmware_update_write_image, firmware_update_apply_update, firmware_update_process_manifest_revocation, firmware_update_restore_recovery_image, firmware_update_restore_active_image", "core/firmware/firmware_update_handler.c: firmware_update_handler_prepare_for_updates"]}
{"id": "C43", "title": "Only an acceptable image is installed, exactly as sent", "statement": "An update changes the active image only if the staged image arrived completely, matches the digest set for it, verifies, is not revoked and not rolled back; a successful update leaves exactly the bytes that were sent in the active region; nothing outside the active, recovery and backup regions changes, and receiving an image touches only the staging region. Without faults an acceptable image is installed.", "quantifier": "every history, staged contents, split of the image into writes, and pattern of failures", "why_tests_cant": "Images, splits into writes and failure patterns are unbounded.", "anchors": ["core/firmware/firmware_update.c: firmware_update_load_and_verify_image, firmware_update_run_update, firmware_update_run_update_no_revocation, firmware_update_prepare_staging, firmware_update_write_to_staging, firmware_update_set_image_digest"]}
{"id": "C44", "title": "Manifest revocation only moves forward and never past an image that is needed", "statement": "The oldest allowed manifest never goes back; it advances only when the active image carries the new manifest and the recovery region holds the same image, so that a revocation can never disable the recovery image. After a successful update or revocation it is the manifest of the active image.", "quantifier": "every history of requests with every pattern of failures, including revocations that are done but reported as failed", "why_tests_cant": "The relation must hold at every crash point of every history.", "anchors": ["core/firmware/firmware_update.c: firmware_update_process_manifest_revocation, firmware_update_run_revocation"]}
{"id": "C45", "title": "What is kept of a manifest is what was signed", "statement": "When a manifest is accepted, everything remembered about it (identifier, number of entries, hash of the table of contents, platform ID) is part of the very bytes whose hash was signed, these bytes are a well formed manifest and each of them was read from its place in flash, even if the flash changes during verification. Every well formed signed manifest is accepted, and verification always ends.", "quantifier": "every flash content, every behaviour of the flash over time including failing reads, every hash and signature function, every chain of extended tables", "why_tests_cant": "Tests change single fields of a few manifests; nested length, offset and extension fields and flash that changes between two reads give unboundedly many cases.", "anchors": ["core/manifest/manifest_flash.c: manifest_flash_verify, manifest_flash_verify_v1, manifest_flash_verify_v2, manifest_flash_read_header"]}
{"id": "C46", "title": "Elements read from a verified manifest are the signed ones", "statement": "Reading an element after verification returns the first entry of the requested types from the requested index on, in the order of all tables, with its format, length and the requested part of its data; if the flash was tampered with since, the read fails unless somebody found a second input with the same hash (elements that the manifest gives no hash are exempt). Every element of an untampered manifest can be read.", "quantifier": "every manifest with any number of tables and entries, every request (types, start, parent, offset, buffer), every tampering with the flash between or during reads", "why_tests_cant": "The search crosses tables and must agree with the flat order for every manifest and every start index, under every later change of flash.", "anchors": ["core/manifest/manifest_flash.c: manifest_flash_read_element_data, manifest_flash_read_multiple_type_element_data, manifest_flash_read_element_data_common"]}
{"id": "C48", "title": "The host only boots flash that was verified", "statement": "From a successful power-on of the protection device on, whenever the host has access to its flash and the device is not in bypass, the filter separates the two chips, the chip the host boots from passed verification with a PFM the device had since power-on or holds a recovery image it had, and the host can only write regions that one of those PFMs defines for that content. The host itself cannot change the boot chip. A recovery that fails while programming and a rollback without a PFM are exempt: both are shown to break it.", "quantifier": "every sequence of host resets, run-time checks, rollbacks, recoveries, configuration requests, host writes, filter interrupts and changes of PFMs and recovery images, with every failure of every call, in the middle of every retry loop", "why_tests_cant": "The flows combine about a dozen flags with two PFMs and failures at every call; the invariant must survive all orders of them.", "anchors": ["core/host_fw/host_processor_filtered.c: host_processor_filtered_validate_flash, host_processor_filtered_power_on_reset, host_processor_filtered_update_verification, host_processor_filtered_apply_recovery_image", "core/host_fw/host_processor_dual.c", "core/host_fw/host_flash_manager_dual.c", "core/host_fw/host_flash_manager.c"]}
{"id": "C49", "title": "The active PFM accepts what the host runs", "statement": "As long as activating a pending PFM does not fail and nothing else replaces the active one, whenever the host has access and the device is not in bypass, the PFM that is active now accepts the content of the boot chip (or it is a recovery image), and the writable regions are those of the active PFM for that content.", "quantifier": "every such sequence of operations with every failure of every other call; every PFM comparison that is sound", "why_tests_cant": "The pending PFM is activated in several places relative to the swap of the chips and the setting of the regions, and verification is skipped when two PFMs describe the same images.", "anchors": ["core/host_fw/host_processor_filtered.c: host_processor_filtered_validate_flash, host_processor_filtered_update_verification", "core/host_fw/host_flash_manager.c: host_flash_manager_validate_pfm", "core/host_fw/host_flash_manager_dual.c: host_flash_manager_dual_swap_flash_devices"]}
{"id": "C50", "title": "Power-on fails closed", "statement": "After or during a power-on the host has access to the flash only if it was verified with the active or the pending PFM, or the device is in bypass, or the flash chips are not supported, or the pending PFM is the empty one. In particular an error leaves the host without access. The next operations after an error do not keep to this, which is shown.", "quantifier": "every state at power-on, every pair of PFMs, every failure of every call, every point of every retry loop", "why_tests_cant": "It must hold at the end of every error path and in every retry loop that never ends.", "anchors": ["core/host_fw/host_processor_filtered.c: host_processor_filtered_power_on_reset, host_processor_filtered_initial_rot_flash_access, host_processor_filtered_check_force_bypass_mode", "core/host_fw/host_irq_handler.c: host_irq_handler_power_on"]}
{"id": "C51", "title": "Protection is not dropped silently", "statement": "The device goes from protecting the host to bypass only when there is no active PFM, when the pending PFM is the empty one, or when bypass is requested explicitly; power-on ends in bypass only in the first two cases.", "quantifier": "every history since power-on, every operation, every failure of every call", "why_tests_cant": "Every path of every operation has to be excluded, including all failing ones.", "anchors": ["core/host_fw/host_processor_filtered.c: host_processor_filtered_config_bypass, host_processor_filtered_check_force_bypass_mode, host_processor_filtered_update_verification", "core/host_fw/host_processor_dual.c: host_processor_dual_bypass_mode, host_processor_dual_config_read_only_flash"]}
{"id": "C52", "title": "What the host writes is booted exactly when it verifies", "statement": "If no call fails: a power-on boots the chip that verifies; after a host reset the chip the host wrote becomes the boot chip, with the regions of the PFM, if it verifies, and otherwise boot chip, regions and content stay and the write is undone; a pending PFM that accepts the boot chip becomes the active one at the next check without the boot chip changing.", "quantifier": "every state of a device that protects the host, every PFM and flash content, every configuration", "why_tests_cant": "It fixes the outcome for all contents and states, not for the ones a test sets up.", "anchors": ["core/host_fw/host_processor_filtered.c: host_processor_filtered_update_verification, host_processor_filtered_validate_flash, host_processor_filtered_swap_flash", "core/host_fw/host_processor_dual.c: host_processor_dual_soft_reset, host_processor_dual_run_time_verification"]}
{"id": "C41", "title": "Only complete, signed recovery images for this platform are accepted", "statement": "Verification of a recovery image succeeds only if the flash holds a header, a sequence of sections in ascending order of address and a signature that is good for everything before it, and the header names the platform of the active PFM; every such image is accepted. The reported hash and version are those of the image. Parsing never reads beyond the header.", "quantifier": "every content of the flash, every image, every section list, every failure of a read or an allocation, every hash and signature function", "why_tests_cant": "The parser meets arbitrary bytes; tests use a few images. Overflow in the section lengths only shows with particular lengths.", "anchors": ["core/recovery/recovery_image.c: recovery_image_verify, recovery_image_get_hash, recovery_image_get_version", "core/recovery/recovery_image_header.c: recovery_image_header_init", "core/recovery/recovery_image_section_header.c: recovery_image_section_header_init", "core/common/image_header.c: image_header_init"]}
{"id": "C53", "title": "A recovery image is programmed exactly where its sections say", "statement": "Applying a recovery image changes no byte of the host flash outside the sections of the image, whatever fails; if it succeeds, every section is in the flash at its address. If the flash is blank there and nothing fails, it succeeds.", "quantifier": "every image, every flash content, every failing or short operation, every page size", "why_tests_cant": "It ranges over all images and all failure points and says what does not change.", "anchors": ["core/recovery/recovery_image.c: recovery_image_apply_to_flash", "core/flash/flash_util.c: flash_copy_ext_to_blank_and_verify"]}
{"id": "C47", "title": "Only verified manifests are offered, and what is in use stays", "statement": "A client gets an active or pending manifest only if it was verified by the last start or by a call to verify, after which its region has not changed; with signed manifests, the signature in the region is good for its data and the id that was compared is the signed one. While a client has a manifest no call changes its region. While there is an active manifest, a pending one has a higher id and a platform that may replace the active one. The active manifest is replaced only by a successful activation, by the pending one, or cleared on request; a manifest becomes pending only by a call to verify. A complete update leaves the written data pending if and only if it is good, newer and compatible.", "quantifier": "every history of calls and restarts, with any interleaving that the statement admits, any flash content and any flash or engine failure", "why_tests_cant": "It ranges over all histories, interleavings, crash points and failures.", "anchors": ["core/manifest/manifest_manager_flash.c: manifest_manager_flash_init_state, manifest_manager_flash_get_manifest_region, manifest_manager_flash_free_manifest, manifest_manager_flash_activate_pending_region, manifest_manager_flash_clear_pending_region, manifest_manager_flash_write_pending_data, manifest_manager_flash_verify_pending_manifest, manifest_manager_flash_clear_all_manifests", "core/manifest/manifest_flash.c: manifest_flash_compare_id, manifest_flash_compare_platform_id"]}
{"id": "C54", "title": "The active manifest is never rolled back", "statement": "While nobody clears the manifests, the active manifest is never lost and its id never decreases, over any number of updates, failed updates, activations and restarts, if the activation had been stored before the device restarted and verification of the same data differs only by failures of the engines.", "quantifier": "every history of calls and restarts", "why_tests_cant": "It is a statement about all histories of unbounded length.", "anchors": ["core/manifest/manifest_manager_flash.c: manifest_manager_flash_check_pending_manifest_id, manifest_manager_flash_activate_pending_region, manifest_manager_flash_init_state", "core/state_manager/state_manager.c: state_manager_save_active_manifest, state_manager_store_non_volatile_state"]}
{"id": "C55", "title": "HMAC is computed as RFC 2104 says", "statement": "For every key and data, in one block or in any pieces, the HMAC in the output buffer is that of RFC 2104 over the hash in use, and no other byte of the buffer changes. If any call of the hash engine fails, no HMAC is reported and the buffer is left alone. In every case the engine is free afterwards and nothing of the key stays in the context. An engine that is in use is refused and its digest is not disturbed.", "quantifier": "every key, message, division into pieces, and failure of any calls of the engine", "why_tests_cant": "Keys and messages have any length, and the failures can come at any call.", "anchors": ["core/crypto/hash.c: hash_generate_hmac, hash_hmac_init, hash_hmac_update, hash_hmac_finish, hash_hmac_cancel"]}
{"id": "C56", "title": "Derived keys are those of SP 800-108 and RFC 5869", "statement": "The KDF in counter mode fills the output with the key of SP 800-108 for its key, label, context and length; HKDF extracts and expands as RFC 5869 says and refuses keys that are too long. Over any history of calls, HKDF derives keys only from the pseudorandom key of the last extraction, as updated since; without one, or after it was cleared, it derives nothing. No key material stays in the contexts.", "quantifier": "every input, output length, history of calls, and failure of any calls of the engine", "why_tests_cant": "Output lengths and histories are unbounded, and failures can come at any call.", "anchors": ["core/crypto/kdf.c: kdf_nist800_108_counter_mode, kdf_hkdf_expand", "core/crypto/hkdf.c: hkdf_extract, hkdf_expand, hkdf_update_prk, hkdf_clear_prk"]}
{"id": "C57", "title": "ASN.1 integers, object identifiers and lengths are encoded and decoded as X.690 says", "statement": "asn1_encode_integer writes the one DER encoding of the number, or fails because the buffer is too small; asn1_decode_integer returns the value of every DER integer below 2^64 with any following data, and whatever it accepts is an INTEGER item with that value. Object identifiers are written and found likewise. asn1_get_der_encoded_length returns the length of the item at the start of the data, or the length of the data if the item does not end in it. No byte outside the buffer is read or written, except for the reported cases: an empty INTEGER, and lengths near 2^32.", "quantifier": "every number below 2^64, every object identifier, every byte string as input, every buffer size, and every range of size_t of at least 32 bits", "why_tests_cant": "There are 2^64 numbers and unboundedly many byte strings; the boundaries (a set top bit, a leading zero, lengths in one to four bytes, a wrap of the length) combine.", "anchors": ["core/asn1/asn1_util.c: asn1_get_der_item_len, asn1_get_der_encoded_length, asn1_encode_integer, asn1_decode_integer, asn1_encode_base128_oid, asn1_decode_base128_oid"]}
{"id": "C58", "title": "ECDSA signatures are converted to and from DER without loss", "statement": "ecc_der_encode_ecdsa_signature writes the DER encoding of the two numbers, or fails because the buffer is too small, and the documented maximum lengths are enough; ecc_der_decode_ecdsa_signature accepts only a SEQUENCE of exactly two INTEGER items that is in the data as a whole, returns their values in the key length, accepts every DER signature whose numbers fit, and never reads outside the data or writes outside the two buffers. Decoding an encoded signature gives back the two numbers.", "quantifier": "every pair of numbers and key length up to 124 bytes, every buffer size, and every byte string as signature", "why_tests_cant": "Signatures come from other devices: no list of malformed inputs covers the byte strings an attacker can send, and the padding rules depend on the leading bytes of both numbers.", "anchors": ["core/asn1/ecc_der_util.c: ecc_der_decode_ecdsa_signature, ecc_der_encode_ecdsa_signature, ecc_der_decode_ecdsa_integer, ecc_der_encode_ecdsa_integer"]}
{"id": "C59", "title": "EC keys are converted to and from DER without loss and only for the named curve", "statement": "ecc_der_encode_public_key and ecc_der_encode_private_key write the structures of RFC 5480 and SEC 1 for the curve of the key length, with the documented lengths, or fail because the buffer is too small; ecc_der_decode_public_key and ecc_der_decode_private_key give the key back, accept only data that names the curve for the length of the key, and do not exceed the key buffers. Decoding a public key never reads outside the data; decoding a private key does so only for a key with an extra leading zero.", "quantifier": "every key of the three curves, every buffer size, every byte string as encoded key", "why_tests_cant": "Encoded keys come from outside; every truncation and every inconsistent length is an input.", "anchors": ["core/asn1/ecc_der_util.c: ecc_der_decode_private_key, ecc_der_decode_private_key_no_copy, ecc_der_encode_private_key, ecc_der_decode_public_key, ecc_der_decode_public_key_no_copy, ecc_der_encode_public_key"]}
{"id": "C60", "title": "Base64 encoding follows RFC 4648 and can be undone", "statement": "base64_core's encode writes the RFC 4648 encoding of the data and a terminating zero byte and nothing else, or fails because the buffer is smaller than BASE64_LENGTH announces; the announced length is exact; no two byte strings have the same encoding. The lengths are right as long as four times the length of the data does not exceed the range of size_t.", "quantifier": "every byte string, every buffer size and content, every range of size_t", "why_tests_cant": "The data is unbounded, its bits are regrouped across bytes, and its length modulo three decides the end.", "anchors": ["core/asn1/base64_core.c: base64_core_encode", "core/asn1/base64.h: BASE64_LENGTH"]}
{"id": "C61", "title": "OCP recovery: bus framing", "statement": "For every state of the device and every sequence of bytes written to it over SMBus: an unknown command code is not acknowledged; a message with fewer bytes than its byte count announces, or more than fit, or with a packet error code that is not the CRC-8 of the whole message, triggers no command and changes nothing but the protocol status; every other message is handed to its command exactly as sent. A read is answered with length, data and the CRC-8 of the whole exchange.", "quantifier": "all device states, configurations, addresses and byte sequences; all answers of the hardware", "why_tests_cant": "Every length, every content and every earlier state of the receiver would have to be tried; the checksum length wraps only at one length.", "anchors": ["core/recovery/ocp_recovery_smbus.c: ocp_recovery_smbus_start, ocp_recovery_smbus_stop, ocp_recovery_smbus_receive_byte, ocp_recovery_smbus_transmit_bytes", "core/recovery/ocp_recovery_device.c: ocp_recovery_device_start_new_command, ocp_recovery_device_checksum_failure, ocp_recovery_device_write_overflow"]}
{"id": "C62", "title": "OCP recovery: confinement", "statement": "Whatever a requester sends over the bus, in any order and any number of messages, and whatever the flash reports: the device never accesses memory outside its buffer and regions; regions that may not be written keep their contents; flash outside the writable regions is neither erased nor programmed; resets and activation are requested from the hardware only if the hardware offers them, and only a code region is activated. Of the commands only INDIRECT_DATA changes stored data, and only in the region selected before.", "quantifier": "all histories of bus operations, all flash faults, all usable configurations", "why_tests_cant": "Histories are unbounded and the offsets and erase pointers carry state from one message to the next.", "anchors": ["core/recovery/ocp_recovery_device.c: ocp_recovery_device_init_state, ocp_recovery_device_write_request, ocp_recovery_device_read_request", "core/recovery/ocp_recovery_smbus.c"]}
{"id": "C63", "title": "OCP recovery: transfers", "statement": "An image sent in pieces to a region selected at offset 0 is what the region then starts with, whatever was there before. Reading a region piece by piece from offset 0 returns its contents, padded with zeros to a multiple of four, and changes nothing stored. Data written across the end of a memory region continue at its start and the overflow is reported.", "quantifier": "all images, all ways of cutting them into pieces, all previous contents, all region sizes", "why_tests_cant": "The erase pointer and the offset run along with the pieces; every cut and every size would have to be tried.", "anchors": ["core/recovery/ocp_recovery_device.c: ocp_recovery_device_write_indirect_data, ocp_recovery_device_read_indirect_data, ocp_recovery_device_write_indirect_ctrl"]}
{"id": "C64", "title": "SPI flash driver", "statement": "For a device that describes itself consistently, of any size and with any of the address modes: every history of reads, writes, sector, block and chip erases and mode switches has the answers and the effect of an ideal array of bytes, at every address, across pages, and however long the device is busy. If transfers fail, at any point and with any partial effect: no call changes anything outside its range, no address is sent in a form the device does not expect, the count a write returns is programmed, and a call refused for its range or because the device is busy changes nothing.", "quantifier": "all devices, histories, addresses, lengths, busy times and failing transfers", "why_tests_cant": "Each address, length and page alignment times each failing transfer times each address mode of the device would have to be tried on hardware.", "anchors": ["core/flash/spi_flash.c: spi_flash_discover_device, spi_flash_read, spi_flash_write, spi_flash_sector_erase, spi_flash_block_erase, spi_flash_chip_erase, spi_flash_enable_4byte_address_mode"]}
{"id": "C37", "title": "Messages on a shared command channel", "statement": "Whatever tasks send messages over a channel at the same time, in whatever order they run, and whatever the bus answers: what a task has put on the wire is always a beginning of its message, cut into packets of the size asked for, in order and to its destination; all of it if success is reported, nothing if the answer is late. The packets of a message that never meets a busy bus are not interrupted by other messages. Of received packets exactly those are processed that are no overflow and do not directly follow one.", "quantifier": "all numbers of tasks, messages, packet sizes, schedules and bus answers; all sequences of received packets", "why_tests_cant": "The lock is given up in the middle of a message while the bus is busy: the result depends on the schedule.", "anchors": ["core/cmd_interface/cmd_channel.c: cmd_channel_send_packets, cmd_channel_send_message, cmd_channel_receive_and_process"]}
{"id": "C65", "title": "TPM storage", "statement": "While no flash access fails, every history of calls and restarts behaves as an ideal TPM storage: a counter, segments that return what was stored, and a clear that happens at the next restart after it was scheduled and erases everything. Whatever accesses fail and whenever the power fails: a segment that was stored is returned as stored until it is stored again or a clear is scheduled; no call changes another segment; a clear interrupted by a power failure is completed at the next start; a start that read the header and reports success has performed a pending clear. If reads work and writes are atomic, no reported increment of the counter is lost.", "quantifier": "all histories, contents, failing accesses, power failures and flash contents at the start", "why_tests_cant": "A failure or power cut at each access of each history would have to be tried.", "anchors": ["core/tpm/tpm.c: tpm_init_state, tpm_on_soft_reset, tpm_schedule_clear, tpm_increment_counter, tpm_get_counter, tpm_set_storage, tpm_get_storage"]}
{"id": "C66", "title": "Device unlock", "statement": "A device is told to unlock only with data that holds the unlock token made last, before it expired, was used or the policy was cleared, and the signature of the authority over token and policy; if the authority signs nothing but unlock data in the documented layout, the policy applied is the one it signed for that token, and no data unlocks a device twice. Tokens are made only for devices whose counter says they are locked, and say the OID, the UUID and the next unlocked value of the counter; what the parsers find in unlock data built from a token is what the device wrote. No data makes the parsers read outside of it.", "quantifier": "all histories of token requests, policies and clears, all data, counters and device identities, and any failures of the device, the random generator, the engines and the clock", "why_tests_cant": "The data comes from outside and the tokens depend on the history.", "anchors": ["core/system/device_unlock_token.c: device_unlock_token_generate, device_unlock_token_authenicate, device_unlock_token_invalidate, device_unlock_token_get_unlock_counter, device_unlock_token_get_nonce, device_unlock_token_get_unlock_policy", "core/system/secure_device_unlock_policy.c: secure_device_unlock_policy_get_unlock_token, secure_device_unlock_policy_apply_unlock_policy, secure_device_unlock_policy_clear_unlock_policy", "core/asn1/asn1_util.c: asn1_get_der_item_len, asn1_encode_base128_oid"]}
{"id": "C67", "title": "SPDM transcripts", "statement": "The hash returned for an SPDM transcript is the hash of the VCA messages, where the specification has them, followed by exactly the messages added to that transcript since it was last reset or finished, in order, whatever is done to the other transcripts in between. Resetting or finishing a transcript ends it, and no hash is returned for a transcript that was not begun. Calls succeed unless an engine fails, and nothing outside of the manager is accessed.", "quantifier": "all sequences of calls for existing sessions, with any failures of the hash engines, any messages, versions and numbers of engines", "why_tests_cant": "The hash depends on the whole history of calls and on the contexts sharing hash engines.", "anchors": ["core/spdm/spdm_transcript_manager.c: spdm_transcript_manager_init_state, spdm_transcript_manager_update, spdm_transcript_manager_get_hash, spdm_transcript_manager_reset, spdm_transcript_manager_reset_context, spdm_transcript_manager_reset_session_transcript, spdm_transcript_manager_set_hash_algo", "core/crypto/hash_mbedtls.c"]}
{"id": "C68", "title": "Manifest keys", "statement": "A manifest is accepted only if it was signed with a key that the root key signed and the device has, in the keystore or as default key of the firmware. Once a manifest signed with the default key is activated, or a key is in the keystore, keys with lower ids are never accepted again, whatever firmware is started and whatever calls fail. After a start the key in the keystore and, if it is newer, the default key are accepted. A firmware update is allowed only if any new firmware will accept the active manifest.", "quantifier": "all histories of starts with any firmware, verifications, activations and update starts, with any failures of the crypto engines and the keystore, any keys and signatures", "why_tests_cant": "Revocation depends on the order of starts, activations and failed saves over the life of the device.", "anchors": ["core/manifest/manifest_verification.c: manifest_verification_init_state, manifest_verification_verify_key, manifest_verification_verify_signature, manifest_verification_on_manifest_activated, manifest_verification_on_update_start", "core/manifest/manifest_verification.h"]}
{"id": "C69", "title": "SPDM secure sessions", "statement": "No two messages of a responder are sealed with the same key and IV, no message is accepted twice, and messages are only accepted with a valid tag under a key derived for their session. What the peer seals with the next sequence number is delivered unchanged, and each reply is the handler's reply, sealed as the next message to the peer. A session starts only with a KEY_EXCHANGE, becomes established only by a message authenticated with its handshake key, and ends only by a message authenticated with its key or with all sessions by GET_VERSION; then messages for it are refused. No message makes the responder read or write outside of its buffer.", "quantifier": "all histories of requests, inside and outside of sessions, well formed or not, with any failures of the AES engine and the handlers, any number of sessions, any derived keys that are distinct", "why_tests_cant": "Reuse of an IV shows only in the order of messages, failures and sessions over a whole history, and a forged message can be any bytes.", "anchors": ["core/spdm/spdm_secure_session_manager.c: spdm_secure_session_manager_create_session, spdm_secure_session_manager_release_session, spdm_secure_session_manager_reset, spdm_secure_session_manager_decode_secure_message, spdm_secure_session_manager_encode_secure_message", "core/spdm/cmd_interface_spdm_responder.c: process_request", "core/spdm/spdm_commands.c: spdm_key_exchange, spdm_finish, spdm_end_session"]}
{"id": "C70", "title": "Intrusion detection", "statement": "The device reports that there was no intrusion exactly if a reset, a check or a notification has found so and could be measured, and since then there was no intrusion, no check that found one or failed, and no restart; the PCR then says the same. A recorded intrusion stays over restarts and failures until a reset, and until then \"no intrusion\" is not reported. A reset does nothing while an intrusion is active.", "quantifier": "all histories of intrusions, resets, checks, notifications and restarts, with any failures of the storage and the PCR", "why_tests_cant": "Which state is reported depends on the order of intrusions, checks, failures and restarts.", "anchors": ["core/intrusion/intrusion_manager.c: intrusion_manager_handle_intrusion, intrusion_manager_reset_intrusion, intrusion_manager_update_intrusion_state, intrusion_manager_init", "core/intrusion/intrusion_manager_async.c", "core/intrusion/authorized_execution_reset_intrusion.c"]}
{"id": "C71", "title": "Event task", "statement": "A task that executes submitted events is atomic. A submission either is refused because there is no task, the task is not ready or the data is too long, or it is accepted, and it returns success exactly then. Accepted events are executed in order, each exactly once, one at a time, by the handler they were submitted for, after all handlers have been prepared. While it runs a handler sees exactly the submitted action and bytes. Status queries see the status as accepted submissions and handlers left it. No event is lost and nothing deadlocks.", "quantifier": "all schedules of any number of threads and the task, one memory access per step; all requests, handlers and buffer sizes", "why_tests_cant": "A test runs one interleaving; lost wake-ups, torn data and double execution show only in others.", "anchors": ["core/system/event_task.c: event_task_submit_event, event_task_find_handler, event_task_prepare_handlers", "projects/freertos/event_task_freertos.c: event_task_freertos_get_event_context, event_task_freertos_notify, event_task_freertos_process_notification, event_task_freertos_start"]}
{"id": "C72", "title": "Unseal requests are accepted exactly when they are well formed", "statement": "The command that starts unsealing accepts a message exactly when it is a header, a supported seed type, HMAC type and padding, a non-empty length-prefixed seed, a non-empty length-prefixed ciphertext, a 32-byte HMAC and five 64-byte PMR values, and nothing else. The background operation is then run with exactly those fields, and every accepted message has only one reading. Bytes left in the buffer behind the message play no part, and no read goes further than one byte past the message.", "quantifier": "every buffer content and every message length", "why_tests_cant": "The three lengths inside the message are chosen by the sender; the offsets that depend on them cannot be enumerated.", "anchors": ["core/cmd_interface/cerberus_protocol_optional_commands.c: cerberus_protocol_unseal_message", "core/cmd_interface/cerberus_protocol_optional_commands.h: struct cerberus_protocol_message_unseal", "core/cmd_interface/cmd_background_handler.c: cmd_background_handler_execute"]}
{"id": "C73", "title": "Background commands report what happened, and execute what was accepted", "statement": "Long-running commands (unsealing, authorized operations, certificate authentication, debug log, key generation, reboot) are submitted to a task and asked after later. A submission is answered too big, no task, busy or accepted, according to its size and what the task is doing. Accepted operations are executed in order, each once, with exactly the operation and data that were passed. The result of unsealing, the status of authorized operations and the state of the certificate chain are always those of the last operation of their kind that was taken; a refused submission does not disturb them. A key is handed out only if the last unsealing succeeded, it is the key of that unsealing, and it is handed out once. The device is reset only if a reboot was requested or an authorized operation asked for it.", "quantifier": "every history of commands, task steps, results of the operations and events of other handlers of the same task", "why_tests_cant": "Statuses and the key live in memory shared between commands and the task; whether a query sees a stale or half-written result depends on the order of everything before it.", "anchors": ["core/cmd_interface/cmd_background_handler.c: cmd_background_handler_unseal_start, cmd_background_handler_unseal_result, cmd_background_handler_execute_authorized_operation, cmd_background_handler_execute", "core/system/event_task.c: event_task_submit_event"]}
{"id": "C74", "title": "A key is unsealed only in the state it was sealed to", "statement": "Unsealing succeeds exactly if a secret can be recovered from the seed in the way the request names, the HMAC over ciphertext and sealing policy under the signing key derived from that secret is the one of the request, and every value of the policy is all zero or is the current value of its PCR padded with zeros in front. The encryption key derived from the secret is then in the buffer and the rest of the buffer is unchanged. If it fails the buffer is unchanged, unless only the derivation of the key itself failed. For a request on the wire the five values of the message are checked in order, each against its PCR.", "quantifier": "every seed, ciphertext, HMAC, policy of up to 256 values, set of PCRs with digests of up to 64 bytes, result of the cryptographic primitives, and every well-formed unseal request", "why_tests_cant": "Releasing the key depends on every byte of the policy and every PCR; tests use a few policies with PCRs of one length.", "anchors": ["core/attestation/aux_attestation.c: aux_attestation_unseal", "core/cmd_interface/cmd_background_handler.c: cmd_background_handler_execute"]}
{"id": "C75", "title": "Recovery of a BMC that does not boot climbs one rung at a time", "statement": "A boot from the second flash in or right after a host reset is a failure and is always answered: first by the configured number of plain resets, then by restoring read/write data, then by a rollback, then by the recovery image, a rung that is not available being left at once for the next. Since the timeout last expired, data is restored only after all resets and once, a rollback is tried only after that and the image applied only after a rollback was tried. A host that keeps failing gets to the image after at most two failures more than there are resets, and every time from then on, unless the image was found missing, when a rollback is tried every time. Every answer ends with an operation that succeeded or with a reset of the host. One failure is answered once, a normal boot is never interfered with, and nothing is done to a running host.", "quantifier": "every history of host resets, exits from reset, chip select events, timeouts and results of the recovery operations, and every setting", "why_tests_cant": "The answer depends on a counter, a flag and a timer over the whole history of boots; tests walk a few paths.", "anchors": ["core/host_fw/bmc_recovery.c: bmc_recovery_on_host_reset, bmc_recovery_on_host_out_of_reset, bmc_recovery_on_host_cs0, bmc_recovery_on_host_cs1"]}
{"id": "C76", "title": "Resetting the configuration clears what it is for, and success means that it did", "statement": "The authorized operations that restore bypass mode, restore the defaults, clear the platform configuration, the component manifests or the provisioned certificates clear exactly the stores they are for, in order, each once, up to the first error, which is returned; nothing else is touched. Success is reported only if every store was cleared and there was one. If every store can be cleared success is reported, provided there is something to clear and, for the defaults, something besides bypass and platform manifests. A device reset is requested only after the platform configuration was cleared.", "quantifier": "every configuration of manifest managers, states, key stores and optional parts, and every pattern of errors", "why_tests_cant": "Which stores are reached depends on all errors before them; tests fail one store at a time in a few configurations.", "anchors": ["core/cmd_interface/config_reset.c: config_reset_restore_defaults, config_reset_restore_bypass, config_reset_restore_platform_config, config_reset_clear_component_manifests, config_reset_clear_provisioned_certificates", "core/cmd_interface/authorized_execution_config_reset.c: authorized_execution_config_reset_execute"]}
{"id": "C77", "title": "SPDM measurement records say what the device measured", "statement": "The record of all measurements is written exactly if every measurement can be reported and the record fits the buffer. A requester that reads it finds every measurement of the device, numbered from 1 in order through all PCRs, with its type, as raw data if that was asked for and there is some and as its digest otherwise; a record has only one reading, and the rest of the buffer is unchanged. The length announced beforehand is the length written. A single block is the measurement with that number in the record, and there is none with number 0, 255 or above the count. The summary hash covers the record of digests of all measurements, or of those of the TCB with their numbers kept.", "quantifier": "every PCR store with up to 254 measurements, every form requested and every buffer", "why_tests_cant": "Numbers, lengths and values of blocks depend on every measurement before them; tests use a handful of PCRs.", "anchors": ["core/spdm/spdm_measurements.c: spdm_measurements_get_all_measurement_blocks, spdm_measurements_get_all_measurement_blocks_length, spdm_measurements_get_measurement_block, spdm_measurements_get_measurement_summary_hash", "core/attestation/pcr_store.c: pcr_store_get_measurement_type, pcr_store_get_num_total_measurements"]}
{"id": "C78", "title": "The DOE mailbox hands over requests unchanged and frames replies correctly", "statement": "A complete data object that carries an SPDM request reaches the SPDM responder with exactly the payload that was sent, marked as secured if and only if it came as a secured object. What is sent back is a data object of the same type whose payload is the reply of the responder, filled up to whole dwords, with the matching length in its header; a reply that does not fit is an error and nothing is sent. Everything else in the mailbox is refused, left as it was, and not answered. A host that walks through discovery from index 0 finds every supported protocol, in order and once.", "quantifier": "Every content and size of the mailbox up to 2^20 bytes, every behaviour of the responder, every list of up to 255 protocols.", "why_tests_cant": "The length field has 2^32 values with a special case at 0, payloads have any length and the responder may do anything to the buffer; tests pick a few messages and one configured size.", "anchors": ["core/pcisig/doe/doe_interface.c: doe_interface_init, doe_interface_process_message, doe_interface_decode_message, doe_interface_encode_message, doe_interface_process_doe_discovery_request", "core/pcisig/doe/doe_cmd_channel.c: doe_cmd_channel_receive_and_process"]}
{"id": "C79", "title": "The keystore returns keys as they were saved and never hands out a key that failed its check", "statement": "After any history of saves and erasures, a key whose last call worked is loaded byte for byte with its length, or reported as missing if it was erased; calls for other keys do not matter. Power loss during a save leaves the old result, no key or the new key. A key from a protected store has passed its digest or tag check. The caller gets a key and one buffer to free, or no key and nothing to free.", "quantifier": "Every history of calls with any flash faults in any of them, every geometry and protection of the block store, every content of the flash, every point of power loss.", "why_tests_cant": "Histories, geometries, faults and interruption points cannot be enumerated; the unit tests use a mocked block store and check single calls.", "anchors": ["core/keystore/keystore_flash.c: keystore_flash_save_key, keystore_flash_load_key, keystore_flash_erase_key, keystore_flash_erase_all_keys", "core/flash/flash_store_contiguous_blocks.c"]}
{"id": "C80", "title": "A device is moved to RMA only by a token for this device that the authority signed", "statement": "The transition to RMA is started only by a token that names the device type, the UUID and the Device ID key of this device and that ends in a signature of the authority over all of this (or, where tokens are not signed, ends there), and at most once per request; every such token works unless something external fails. Checking a token starts nothing and gives the same verdict. Nothing outside of the token is read, no hash is left active and the authority key is wiped from the verification engine.", "quantifier": "Every token of every length, every device identity, every failure of the UUID, hash, verification and device handlers, 32 and 64 bit size_t.", "why_tests_cant": "Tokens are byte strings of any length with a variable-length identifier whose length field can wrap; tests flip one field at a time.", "anchors": ["core/rma/rma_unlock_token.c: rma_unlock_token_authenticate, rma_unlock_token_authenticate_no_signature", "core/rma/secure_device_unlock_rma.c: secure_device_unlock_rma_apply_unlock_policy, secure_device_unlock_rma_get_unlock_token", "core/rma/authorized_execution_rma.c: authorized_execution_rma_execute, authorized_execution_rma_validate_data", "core/crypto/signature_verification.c: signature_verification_verify_message"]}
{"id": "C81", "title": "An update that affects the host is started only under an authorization that is still valid", "statement": "An update is allowed exactly if every check finds that it does not affect the host, or that this can be authorized and is authorized at that moment. An authorization ends when its time is over, when it is reset, and with the first successful update; until then it lasts. After an update the device resets itself only if that does not affect the host. Calls made at the same time never wait for each other for ever.", "quantifier": "Every interleaving of any number of authorizations, resets, checks and timer callbacks, every delay of the timer, every failure of timer calls, every list of checks and answers.", "why_tests_cant": "Authorizations, resets and the timer callback run in different tasks; which interleavings happen depends on timing, and a test cannot try them all.", "anchors": ["core/firmware/impactful_update.c: impactful_update_is_update_allowed, impactful_update_authorize_update, impactful_update_reset_authorization", "core/firmware/impactful_update_handler.c: impactful_update_handler_execute", "core/firmware/firmware_update_observer_impactful.c: firmware_update_observer_impactful_on_update_start", "projects/freertos/platform.c: platform_timer_notification, platform_timer_arm_one_shot", "projects/linux/platform.c: platform_timer_thread, platform_timer_arm_one_shot"]}
{"id": "C82", "title": "Several block stores used as one behave as a single store", "statement": "A block id given to the aggregated store names the block at that place when the blocks of all stores are numbered through: a call on it returns what that store returns and changes no other block of any store. Ids outside are refused and change nothing. The number of blocks, the largest data length and the flash size reported are those of the whole. Erasing everything reports success only if every store was erased.", "quantifier": "Every number of stores, every number of blocks in each, every id in the range of int, every kind of call on a block working or failing, every store that is missing or cannot be counted.", "why_tests_cant": "The mapping has to be right for all numbers of stores and blocks and all ids, including negative ones and those at the borders between stores.", "anchors": ["core/flash/flash_store_aggregator.c: flash_store_aggregator_get_flash_store_and_block_index, flash_store_aggregtor_write, flash_store_aggregtor_read, flash_store_aggregtor_erase, flash_store_aggregtor_erase_all, flash_store_aggregtor_get_max_data_length, flash_store_aggregtor_get_flash_size, flash_store_aggregtor_get_num_blocks"]}
{"id": "C83", "title": "A device interface is started only with the nonce its lock was granted with", "statement": "The TDISP responder tells the driver to start an interface exactly if the request is protected by a session, well formed, names that interface, and carries the nonce that was sent when the interface was last locked and that the driver has not cleared since. A lock is granted only while no nonce is outstanding, with fresh random bytes. Each request makes at most one call of the driver, for the interface it names; success is reported only if that call worked. Other requests are refused with the right error and change nothing. Replies fit the space for them.", "quantifier": "Every sequence of requests with any bytes and any order, every function, every result and failure of the driver, the random number generator and the context manager, every set of contexts the driver clears.", "why_tests_cant": "Whether a nonce is outstanding depends on the whole history of requests and resets of all interfaces, and requests are arbitrary bytes.", "anchors": ["core/pcisig/tdisp/cmd_interface_tdisp_responder.c: cmd_interface_tdisp_responder_process_request", "core/pcisig/tdisp/tdisp_commands.c: tdisp_get_version, tdisp_get_capabilities, tdisp_lock_interface, tdisp_get_device_interface_report, tdisp_get_device_interface_state, tdisp_start_interface, tdisp_stop_interface, tdisp_generate_error_response", "core/pcisig/tdisp/tdisp_tdi_context_manager.c: tdisp_tdi_context_set_start_nonce"]}
{"id": "C84", "title": "PCIe link keys reach the driver only as protected requests name them, and do not stay in the message", "statement": "The IDE key management responder programs, activates or stops a key exactly on a protected request of the right id and length, for the port, stream, key set, direction and sub-stream the request names, and with the key and IV in it. The acknowledgement of a key carries the right status, and the key and IV are gone from the message whether the driver took them or not. Use and stop are acknowledged only if the driver did them. A query is answered with the data of the asked port: header, registers, and the number of link and selective blocks the capabilities give, each without the address blocks it does not have. The answer fits the room for it and nothing behind it is written.", "quantifier": "Every buffer and request length, every room for the reply, every driver with any registers, blocks and failures.", "why_tests_cant": "Requests are arbitrary bytes, and the length of a query reply depends on registers and on the contents of each block written before.", "anchors": ["core/pcisig/ide/cmd_interface_ide_responder.c: cmd_interface_ide_responder_process_request", "core/pcisig/ide/ide_commands.c: ide_km_query, ide_km_key_prog, ide_km_key_set_go, ide_km_key_set_stop", "core/pcisig/ide/ide_protocol.h"]}
{"id": "C85", "title": "The periodic task runs the handler that wants to run first, in time", "statement": "Each call runs exactly one handler: the one that wants to run first, and of those with the same time the first in the list, after sleeping until that time. So no handler that wants to run at a time is kept past it by sleeping or by a later handler; one whose time is past waits only for handlers before it whose time is past too. If the time of a handler cannot be told, nothing is run and that error is returned. Preparing reaches each handler that can be prepared once, in order.", "quantifier": "Every list of handlers of any length, with gaps, all times and all failures of the clock.", "why_tests_cant": "The choice depends on the times of all handlers and their order; a wrong tie or boundary shows only for particular combinations.", "anchors": ["core/system/periodic_task.c: periodic_task_prepare_handlers, periodic_task_execute_next_handler"]}
{"id": "C86", "title": "Encrypted requests reach their handler only decrypted by the session and are never answered in the clear", "statement": "A request of the Cerberus protocol is passed to the first handler registered for its command: as sent and marked unprotected if it is plain; as decrypted, marked protected and with room kept for the trailer if it is encrypted and the session decrypts it. The response to an encrypted request is what the session makes of the answer, with the bit for encryption set; if decrypting or encrypting fails, so does the request. A plain request is answered in the clear. An answer has a good header for the command; a handler without a response is answered with success, a failing one and an unknown command with an error message. Malformed messages are refused with the right error and reach no handler.", "quantifier": "Every message, every list of handlers with any results that keep the marks of the message, every session manager with any results.", "why_tests_cant": "It must hold for every header, handler and failure; the path of a failing handler of an encrypted request is rarely tested.", "anchors": ["core/cmd_interface/cmd_interface_multi_handler.c: cmd_interface_multi_handler_process_request, cmd_interface_multi_handler_is_message_type_supported", "core/cmd_interface/cmd_interface_protocol_cerberus.c: cmd_interface_protocol_cerberus_parse_message, cmd_interface_protocol_cerberus_handle_request_result", "core/cmd_interface/cmd_interface_protocol_cerberus_secure.c: cmd_interface_protocol_cerberus_secure_parse_message, cmd_interface_protocol_cerberus_secure_handle_request_result"]}
{"id": "C87", "title": "Reset counters count, each on its own", "statement": "After any history of clears and increments each reset counter reads as the number of its increments since it was last cleared, modulo 2^16. Operations on one counter never change another, though two share a register. Operations on a counter that does not exist fail and change nothing.", "quantifier": "Every history of operations on all types and ports, every start value of the registers, with and without the second register.", "why_tests_cant": "The value depends on the whole history, and independence must hold for every value of the shared register, including overflow.", "anchors": ["core/cmd_interface/counter_manager_registers.c: counter_manager_registers_clear, counter_manager_registers_increment, counter_manager_registers_get_counter"]}
{"id": "C88", "title": "A flash device in memory holds in each byte what last reached it", "statement": "On a memory-backed flash device of whole blocks, a read returns in each byte the data last written there, or 0xff if its block or the chip was erased since; other bytes are as they were at the start. Reads and writes fail exactly if their range is not within the device, erases exactly if their address is not, and failed operations change nothing. Nothing outside the memory is written.", "quantifier": "Every history of writes and erases with any addresses and data, every size that is a number of whole blocks, every range read.", "why_tests_cant": "The contents depend on the whole history; boundaries matter for every address and length.", "anchors": ["core/flash/flash_virtual_ram.c: flash_virtual_ram_read, flash_virtual_ram_write, flash_virtual_ram_block_erase, flash_virtual_ram_chip_erase", "core/flash/flash_virtual_ram.h: VIRTUAL_FLASH_BLOCK_SIZE"]}
{"id": "C89", "title": "An authorized preparation of an update stages what its payload names, and succeeds only with the digest set", "statement": "Executing an authorized request to prepare a firmware update asks for staging only if the payload is well formed, once, for the image length in it, and sets the digest only after the update control has reported that staging is ready: to the digest of the payload with its hash type. Success is reported exactly if every step worked. A failed step ends the execution with its error, and so does the first look at the status after the timeout.", "quantifier": "Every payload, with and without a timeout, every sequence of states of the update control and of the clock, and every result of its calls.", "why_tests_cant": "The payload is arbitrary bytes, and the outcome depends on the order of changes of the status and the timeout.", "anchors": ["core/firmware/authorized_execution_prepare_firmware_update.c: authorized_execution_prepare_firmware_update_execute, authorized_execution_prepare_firmware_update_validate_data"]}
