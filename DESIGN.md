# Design of the formal model

The subject is Azure/Project-Cerberus (the `core/` library) at the pinned commit in /repo.
Everything is modelled in Rocq (Coq 8.16.1) under `rocq/theories`, logical name `Verif`.

## How the model is organised

For each part M of the code:

* `M_Model.v`      executable, total Gallina functions; each definition cites the C file and lines
                   it models and states every simplification;
* `M_Spec.v`       (where the property needs vocabulary of its own) a small specification written
                   without the model's helpers;
* `M_Proofs.v`     lemmas;
* `M_Properties.v` only the property theorems (`exact lemma`), the `Example`s showing a concrete
                   non-trivial instance of the hypotheses, and `Print Assumptions`.

Conventions:

* Bytes are `N` (below 256 where it matters, stated as a hypothesis), addresses and sizes are `N`
  or `nat` (nat only for list lengths).  Machine wrap-around (`mod 2^32`, `mod 2^8`) is written
  explicitly wherever the code can wrap.
* C pointers into caller buffers become list values; a function that writes to a buffer returns the
  new buffer.  Reads or writes outside a buffer are an explicit outcome (`None`/`UB`), never a
  silent default, in the modules where memory safety is the property.
* NULL-argument checks at the top of each function are not modelled (arguments are values).
* Hardware and cryptography (hash, block cipher, signature check, RNG, flash faults) are Section
  variables, so that each theorem is universally quantified over them after the section closes.
* Locks: operations protected by one mutex are atomic steps.  Where the property is about
  interleavings, the steps between lock operations are separate transitions of the model.
* A property the code violates is stated in full, refuted by a theorem `..._refuted` with a
  concrete witness, and the part that does hold is proved as `..._partial` or under the explicit
  extra hypothesis.

## Plan per property

| id | model and proof |
|----|-----------------|
| C01 | `RamLog`: buffer of slots, create/clear as in logging_memory.c; invariant by induction over the op list relating the slots to the abstract list of the last N entries. |
| C02 | `RamLog`: copy_entries through the modelled `buffer_copy`; equality with a window of the stream (uses C11). |
| C03 | `RamLog`: the find_last_entry scan on the reachable buffers; state equality. |
| C04 | `StateMgr`: bitwise majority; proved for all words by bit extensionality. |
| C05 | `StateMgr`: two-sector flash, slots; invariant over the history, scan recovers the last slot. |
| C06 | `StateMgr`: the store as a list of flash operations; every prefix followed by init gives old or new. |
| C07 | `FlashStore`: flash as a byte function; write then read; frame on all other addresses. |
| C08 | `FlashStore`: prefix of flash operations, then read; hash as oracle. |
| C09 | `ByteMath`: induction on the array; big-endian value function as the spec. |
| C10 | `ByteMath`: array as bit sequence (`N.testbit`), induction. |
| C11 | `BufferUtil`: induction over the segment list. |
| C12 | `KeyWrap`: six rounds over any permutation with inverse; induction on rounds and blocks. |
| C13 | `KeyWrap`: on top of C12 plus padding arithmetic. |
| C14 | `Crc8`: CRC as linear map over bytes; induction on the message; injectivity of the byte step. |
| C15 | `Mctp`: packet codec on byte lists; round trip and bounds. |
| C16 | `Mctp`: packetiser and reassembly automaton; induction over the packet list. |
| C17 | `Mctp`: trace invariant over arbitrary packet sequences. |
| C18 | `Mctp`: memory model of the shared buffer; in-place loop equals pure packetiser. |
| C19 | `MctpAsync`: transition system of requester and receiver; violated, refuted by a schedule; safe under the extra condition. |
| C20 | `Pcr`: fold; invariant over update histories. |
| C21 | `Pcr`: invariant over histories. |
| C22 | `Pcr`: window equality through the C loop, uses C11. |
| C23 | `Heap`: free list and allocated set; invariant over malloc/free histories. |
| C24 | `Heap`: machine arithmetic of the size computation; refuted. |
| C25 | `Observable`: list model against an abstract registration log. |
| C26 | `KeyCache`: circular queue; invariant; the defect in the arrangement loop refuted. |
| C27 | `HostFw`: region walk; coverage by induction on the walk. |
| C28 | `HostFw`: permutation for regions; refuted for authenticators longer or shorter than the first, proved otherwise. |
| C29 | `HostFw`: migration through the flash copy model. |
| C30 | `HostFw`: filter merge, coverage both ways. |
| C31 | `FlashUtil`/`FlashUpdater`: frame theorem over call sequences. |
| C32 | `Session`: history of calls with arbitrary outcomes; events give each peer's view; invariant ties the table to the view, IVs in the upper half and increasing per key; no (key, IV) pair used twice. |
| C33 | `Auth`: events of requests; the token handler agrees with the token that the events say is active; arbitrary signature scheme. |
| C34 | `Recovery`: interleaved steps of the calls over the updater and flash models; invariant on references, validity and the region being updated. |
| C35 | `FlashLog`: buffer, sectors and scan at start; refinement of a list of numbered entries over all histories with failing erases and writes, for every sector size and count. |
| C36 | `FlashUtil`: chunk loop equals pointwise check; induction on length. |
| C38 | `Pcr`: windows of event type, version and data; equality of window and hash views. |
| C39 | `HostFw`: version search over the reversed list; invariant on the shared read buffer. |
| C40 | `Session`: 32-bit wrapping room macros; extent written as output; layout of the response by windows. |
| C42 | `FwUpdate`: state monad over flash, device state and an oracle for every outside call; invariant "the recovery flag is right, and while it says bad the active image is good" over all requests and boots. |
| C43 | `FwUpdate`: refinement of run_update to "copy the staged bytes"; fault-free totality; composition with the flash updater for images sent in pieces. |
| C44 | `FwUpdate`: step relation on the oldest allowed manifest. |
| C45 | `Manifest`: verification as a function of an arbitrary read behaviour; relation to an independent encoder of the format. |
| C46 | `Manifest`: reads against the flat list of all entries; forgeries named explicitly as a second input with the same hash. |
| C48 | `HostProc`: the flows in a state monad where every call may fail and every retry loop may go on; PFMs, flash contents and their verification are arbitrary. Invariant over all histories since power-on, also where a loop does not end. |
| C49 | `HostProc`: the same proof with a claim about the active PFM, for histories in which activation does not fail. |
| C50 | `HostProc`: power-on from any state; refutations for what follows a failure. |
| C51 | `HostProc`: from the same step lemma. |
| C52 | `HostProc`: symbolic run of the flows with an oracle that never fails. |
| C41 | `RecoveryImage`: the parser with its 32-bit arithmetic; induction over the section loop in both directions against an encoding relation for images. |
| C53 | `RecoveryImage`: induction over the sections on top of the lemmas about copies to blank flash. |
| C47 | `ManifestMgr`: a step machine with split calls and restarts; an invariant relates references, calls in progress, validity and what was verified. |
| C54 | `ManifestMgr`: a second invariant bounds the id of the active manifest from below over calls and restarts. |
| C55 | `Hmac`: the HMAC functions run on a hash engine with an arbitrary hash and arbitrary failing calls; the result is compared with a definition of RFC 2104. |
| C56 | `Hmac`: the loops of the two KDFs refine block sequences of the standards; for HKDF an invariant over histories of calls relates the object to the last pseudorandom key. |
| C57 | ASN.1 items | `Der`: asn1_util.c with each access checked | number theory of big-endian contents: the encoder gives the unique DER form; the decoder inverts it; wraps of lengths are explicit |
| C58 | DER of ECDSA signatures | `Der`: ecc_der_util.c | characterisation of what is decoded, run lemmas for what must be decoded, injectivity of big-endian numbers for the round trip |
| C59 | DER of EC keys | `Der`: ecc_der_util.c | encoders by appending items to a buffer; decoders by inversion of each step, and a safety calculus for accesses |
| C60 | Base64 | `Base64`: base64_core.c with each access checked | the specification regroups a string of bits; induction by groups of three bytes; a decoder shows that nothing is lost |
| C61 | Receiver of ocp_recovery_smbus.c as a machine over start/byte/stop/transmit with an explicit 257-byte buffer; an independent relation `frame` gives the fate of a byte sequence (PEC as polynomial remainder); theorem: the run of a message has exactly the effect of its fate. 255-byte blocks, stale commands and mixed status refuted. |
| C62 | Invariant over all histories from initialisation (buffer size, region sizes, erase pointers inside their region); any access outside an object is a distinct outcome that is shown not to occur. Initialisation that uses the first region for all: refuted. |
| C63 | Induction over the pieces with the invariant "stored so far, blank up to the erase pointer"; induction over the reads. Writing flash from a non-zero offset and short flash writes refuted. |
| C64 | Driver and device modelled together, transfer by transfer (page wrap, write enable latch, busy state, 3- or 4-byte decoding; a wrong number of address bytes is a distinct outcome); refinement to an ideal memory when no transfer fails; invariant and per-call outcome for arbitrary failures. Failed writes that have written, mode switch while busy and the wrap of the bounds check refuted. |
| C37 | Tasks as a machine with explicit lock, interleaved where the lock is taken and given up; invariant over all schedules. Interleaving when the bus is busy refuted. |
| C65 | TPM storage over an abstract store of blocks whose accesses fail as an arbitrary environment says (old data, new data or none after a failed write); refinement to an ideal TPM, frame theorems for all environments, counter bounds for atomic writes, completion of an interrupted clear. Counter reset and lost clear after read errors, power failure and erase errors refuted. |
| C66 | Parsers over checked reads, token generation in the caller's buffer over checked writes, on top of the models of auth_token.c (C33), the bit counters (C10) and DER headers (C57); invariant over histories for unlocking, soundness and completeness of the parsers for the documented layouts, round trip from generation to parsing. Malformed OID lengths, counters of 256 bytes and wrong token lengths refuted. |
| C67 | Contexts with flags and engine indices over hash engines with one active hash each; transcripts of the specification from the calls and results alone; invariant over all histories tying engines to transcripts. Failed updates, sessions without engines and TH updates without session refuted. |
| C68 | Keys as bytes with arbitrary signature checks; keystore and RAM state; machine of starts, verifications, activations and update starts where every call may fail. Invariant tying the RAM state to the keystore; monotone ids of the stored key. Failed checks, restarts after failed saves and lost keys refuted. |
| C69 | AES-GCM as three arbitrary functions; slots of sessions, message buffers with offsets, the dispatcher and the session part of the handlers; a trace of derived keys, opened and sealed messages. Invariant: of every stored key all used sequence numbers are below the counter, and no two stored keys are equal. Forged messages that stop a session, the overflow over DOE and misplaced error replies refuted. |
| C70 | Machine over the reported value, the measured value and the recorded bit; every call of the storage and PCR may fail. Characterization of the reported value by the history; lost, stale and unmeasured intrusions refuted. |
| C71 | Small-step machine of client threads and the task over the mutex, flags, event context and notification count. Forward simulation to an atomic machine by an invariant over all schedules; per-call histories; progress. Events lost with a null handler refuted. |
| C72 | The checks of the command in their order, with pointers as offsets and reads outside the buffer as a separate outcome; acceptance is compared with an encoder written from the protocol, in both directions. The duplicated check in front of the HMAC length is a finding. |
| C73 | The handler state and the event context on top of the atomic event task of C71, with the running operation writing to the key buffer at any time. Invariant over all histories relating status words and key to the last relevant event; a second one relating the event buffer to the accepted submission. |
| C74 | The checks in order, with decryption, ECDH, KDF, HMAC and the PCR store as parameters. The byte scan of a policy value is characterised by induction. |
| C75 | The state machine with the results of operations and timer as inputs. Refinement to a ladder of rungs, for every setting; order and progress by invariants over the ladder. |
| C76 | Stores are opaque and answer each call with any status. The calls made are related to an inductive description of clearing in order up to the first error, by composing the loops. |
| C77 | The loops over PCRs and measurements and the bytes of each block, over given data and digests. A relational reader of records is the specification; loops are shown equal to one over the concatenation, then by induction. |
| C78 | model decoding, dispatch, discovery and encoding over a buffer with any responder; prove delivery, framing and refusal against an independent definition of data objects, and discovery by induction over the entries |
| C79 | model the calls on top of the block store of C07/C08, keep a log of calls and results, and say from the log alone what each key is; prove loading by the history invariant of the block store |
| C80 | model parsing over bytes with every read checked, on the ASN.1 decoder of C57, with a trace of all external calls; prove acceptance equal to an independent definition of the token text, and the trace properties |
| C81 | model calls and timer callbacks as interleaved steps and prove the authorization from the event history by induction; model the two locks and prove progress without expiry by an ordering invariant |
| C82 | model the lookup and the calls on stores whose block calls are arbitrary functions; prove by induction on the stores that they refine one store with the concatenated blocks |
| C83 | model the requests byte by byte and the stored nonces; prove by induction over histories that the nonce stored is the one outstanding according to the replies sent |
| C84 | model the four requests on the buffer of the message; prove the query by induction over the block loops, with the buffer split into what is written, the rest of the room and what is behind it |
| C85 | model the loop; prove by induction that it holds the best of the handlers seen; derive the statement about absolute times |
| C86 | model parsing, dispatch and the response on the buffer, with any session manager and handlers; prove by cases over the header bytes |
| C87 | model the registers with their masks; prove by bits that halves are independent and by induction over histories that they count |
| C88 | model the buffer and its operations; prove byte by byte, by induction over histories, that it follows a relation that says what each operation does to one byte |
| C89 | model the payload byte by byte and the wait over any list of looks at status and clock; prove by induction over the looks |

## Trusted base

* The Coq 8.16.1 kernel (and `coqchk`).
* `Print Assumptions` stands under every theorem.  All of them report "Closed under the global context": no axiom is used,
  not even one of the standard library.
* The correspondence between the C text and the model, which is by reading: each definition cites its lines and names its
  simplifications.

## What is modelled

The headers of the model files, in full:

* `Aggregator` — * Model of several flash stores used as one core/flash/flash_store_aggregator.c: all of it, on the interface of core/flash/flash_store.h. Modelled: finding the store of an id, with the subtraction in [int]; the calls on a block; erase_all over the stores; the sums and the minimum the queries return, with size_t and int of 32 bits. An array entry may be NULL. External: the stores. A call on a block is any function of what the block has (write, read, erase, get_data_length and has_data_stored, working or not); a store refuses ids that it does not have and leaves its other blocks alone, which is what C07 proves of flash_store_contiguous_blocks.c. Counting the blocks, erasing all of them and the sizes may fail. Simplified: the aggregator itself is not NULL.
* `Auth` — Models core/common/auth_token.c, authorization_challenge.c, authorization_global.c, authorization_allowed.c, authorization_disallowed.c, authorized_data_token_only.c, authorized_data_with_aad.c and core/cmd_interface/cmd_authorization.c. Simplifications: pointers are valid, apart from the token, and one token handler serves all challenge operations; lengths do not overflow (they are at most 65535 and a token each); the locks are not modelled (each request is one step). The random generator, the signing engine, the clock and signature verification are arbitrary and may fail.
* `AuxAtt` — * Model of unsealing core/attestation/aux_attestation.c:338-505 (aux_attestation_unseal) and the way it is called for an unseal request (core/cmd_interface/cmd_background_handler.c:318-326, core/attestation/attestation_responder.c). Modelled: every check in its order, the choice of padding and hashing, which keys are derived from which labels, what is authenticated, and the comparison of the sealing values with the PCRs, byte by byte; comparisons are those of BufferUtil_Model. External: recovering the seed (RSA decryption, ECDH), key derivation and HMAC (core/crypto, see Hmac_Model), and the PCRs, each with its failures. A key derivation that fails may leave anything in its output. Simplified: pointers are not null; a sealing policy is a list of rows of 64 bytes; PCR digests have at most 64 bytes (pcr.h).
* `Background` — * Model of background commands core/cmd_interface/cmd_background_handler.c: unsealing, authorized operations, certificate authentication, debug log and reset requests, which are submitted to an event task, executed there, and asked after by later commands. core/system/event_task.c:74-108 (event_task_submit_event). Modelled: the state of the handler (three status words and the key), the event context, and the phases of the task. The steps are the atomic actions of the event task, which is what theorem C71_atomic proves of it: a submission, a query under the lock, and of the task itself taking an event, running it and finishing it. Between those the running operation may write anything to the key at any time, since it gets the buffer of the handler. Events of other handlers of the same task use the same context. External: what the operations themselves return (unsealing, authorized operations, certificate verification, key generation, clearing the log), and the status identifiers of an authorized operation. Pointers to operations are their eight bytes. Simplified: the debug log entries are left out. Error codes are unsigned; the shift of CMD_BACKGROUND_STATUS is that of an unsigned number.
* `Base64` — Models core/asn1/base64_core.c, base64_core_encode. Reads and writes are checked as in Der_Model: [Over] is an access outside of a buffer. The data that is left is a list, so that in_pos does not appear. Pointers are not null.
* `BmcRecovery` — * Recovery of a BMC that does not boot (core/host_fw/bmc_recovery.c) Modelled: the state machine over host resets, exits from reset and chip select events, the watchdog counter and the flag that stops recovery, the choice of actions and the status that is returned. The results of the actions, the interrupt control and the timer are inputs of each event, so they may be anything at any time. Not modelled: null arguments, the debug log, the 100 ms sleep, and what the actions of the host processor do (that is the subject of HostProc_Model and RecoveryImage_Model). The watchdog counter is an unbounded integer; C75_counter bounds it.
* `BufferUtil` — Models core/common/buffer_util.c (copy, reverse, compare, zeroize).
* `ByteMath` — Models core/common/common_math.c. Simplifications common to all definitions of this file: an array pointer and its length are one list; the NULL checks are dropped; [int] counters are mathematical integers (they would need an array of 2^28 bytes to overflow).
* `CmdChannel` — Models core/cmd_interface/cmd_channel.c: sending messages as packets over a channel that several tasks share, and receiving packets after an overflow. Tasks are interleaved at the points where the channel lock is taken or given up: a task gives it up in the middle of a message while the bus is busy. Simplifications: the result of the driver's [send_packet] and of the clock are part of the schedule; the lock is given up together with the last attempt to send; the bytes of a packet beyond its size are not modelled.
* `CmdSecure` — * Model of the dispatch of Cerberus requests with sessions core/cmd_interface/cmd_interface_multi_handler.c:18-87, core/cmd_interface/cmd_interface_protocol_cerberus.c:13-115 and core/cmd_interface/cmd_interface_protocol_cerberus_secure.c:13-76. Modelled: the buffer of the message from the payload on, the length in it, the flag that the message is encrypted and the largest response; the checks of the header; the search for the handler; the header and the error message of the response. External: the session manager (decrypting and encrypting, modelled in Session_Model) and the handlers, with any results and any effects on the message. Simplified: pointers are not null; payload_length and length are equal; the flag crypto_timeout and the log entry of an error are left out. Buffers have at least the ten bytes of an error message.
* `ConfigReset` — * Resetting the configuration of the device (core/cmd_interface/config_reset.c, authorized_execution_config_reset.c) Modelled: which stores are cleared, in which order, where an operation stops and what it returns, and whether a device reset is asked for. The stores are opaque: each call that clears one may succeed or return any error, also differently on every call. Not modelled: null arguments, the debug log and what clearing does inside a store (the manifests, states, recovery images and keys have models of their own).
* `Counter` — * Model of the reset counters kept in registers core/cmd_interface/counter_manager_registers.c:19-139: all functions. Modelled: the two registers and the masks; the read and the write of an increment, between which the lock is not held. Simplified: the manager is not null. [counter << 16] of 32768 or more is undefined in C (the counter is promoted to int); here it has the usual result, and [undefined] tells when it happens.
* `Crc8` — Models core/crypto/checksum.c, the SMBus packet error code.
* `Der` — Models core/asn1/asn1_util.c and core/asn1/ecc_der_util.c. Every read and write is checked against the size of the buffer it is in, and every subtraction of lengths against zero: [Over] is an access outside of a buffer or a length below zero. A buffer that an error leaves behind is not part of the result. Simplifications: pointers are not null; ECC_MAX_KEY_LENGTH is the length for P-521 (ecc.h:21); lengths given by callers and sizes of key buffers are natural numbers. Lengths read from data are numbers modulo the range of size_t, and the shift by 24 bits of a byte of 128 or more, which C leaves undefined, gives the negative int it gives on the usual compilers.
* `DeviceUnlock` — Models core/system/device_unlock_token.c and core/system/secure_device_unlock_policy.c, with asn1_get_der_item_len and asn1_encode_base128_oid from core/asn1/asn1_util.c. The token handler is the one of core/common/auth_token.c as modelled in Auth_Model.v. Every read and write is checked against the size of the buffer it is in: [Over] is an access outside of it. The security manager of the device (get_unlock_counter, unlock_device and lock_device, core/system/security_manager.h) is arbitrary: it gives any counter and succeeds or fails at will; so are the UUID of the device, memory allocation, the random generator, the signing engine, the clock and signature verification. Simplifications: pointers are not null; integers are little endian; a counter or UUID read from the device is cut to the size of the buffer it is read into; the debug log is not modelled.
* `Doe` — * Model of the DOE mailbox of PCIe devices core/pcisig/doe/doe_interface.c (doe_interface_init, doe_interface_process_message and what it calls) and core/pcisig/doe/doe_cmd_channel.c:18-47 (receive, process, send). Modelled: every check in its order, the message in its buffer with the payload at an offset (struct cmd_interface_msg, as in SpdmSession_Model), the discovery protocol, and the header written for a response. The buffer has the size given by the platform (doe_interface.h:21-24). External: the SPDM responder, which gets the message and may do anything to its buffer, payload and length; SpdmSession_Model is one. Receiving and sending may fail. Simplified: pointers are not null; the length a responder leaves is far from the end of the address space (doe_interface.c:71).
* `EventTask` — * Model of the event task on FreeRTOS core/system/event_task.c (event_task_prepare_handlers, event_task_find_handler, event_task_submit_event) and projects/freertos/event_task_freertos.c (lock, unlock, get_event_context, notify, process_notification, allocate, start). The model is a small-step machine: any number of client threads and one event task, interleaved in any order, one access to shared memory per step. The numbered comments give the line each step models. Modelled: the mutex, the notifying flag, the running index, the shared event context with its buffer copied one byte per step, the counting task notification, the status cells that submitters and handlers write, and sections of client code that run between lock and unlock. Simplified: the mutex is never taken twice by one thread (the code never does) and never fails; a handler is a number standing for its address; a handler's execution is any sequence of looks at the event context, locked writes to status cells and a final verdict on whether to reset, and it does not itself change the context; [vTaskDelete] (release) and the five-second sleep are not modelled; the order of memory accesses is the program order (one core).
* `FlashLog` — Models core/logging/logging_flash.c: a log of variable size entries in a ring of flash sectors. [SS] is the sector size (4096) and [NS] the number of sectors (16). Addresses are relative to the start of the area, which is aligned to its size. Erasing a sector, erasing the area and writing may fail without effect; a write may also stop early ([WPart]). Reads do not fail. The lock is not modelled: every function holds it from its first to its last access of the state. Pointers are assumed non-NULL.
* `FlashStore` — Block storage in flash: core/flash/flash_store_contiguous_blocks.c and flash_store_contiguous_blocks_encrypted.c. The flash device and its faults are those of FlashUtil_Model. Simplifications: NULL-pointer checks are dropped; memory allocation and the engines for hashing, random numbers and encryption succeed. `size_t`, like `uint32_t`, has 32 bits.
* `FlashUpdater` — Flash updater: core/flash/flash_updater.c. Uses the flash utilities (FlashUtil_Model) for erasing, with the same device faults. Simplifications: NULL-pointer checks are dropped; `size_t` is 32 bits, as on the target.
* `FlashUtil` — Flash utilities: core/flash/flash_util.c. A flash is a byte map (Flash_Base). The device operations can fail: [rfail a] says that a read starting at address [a] reports an error, [efail a] that erasing the block at [a] does, and [wres a] is the result of programming at [a]: [None] an error without effect, [Some n] that at most [n] bytes were programmed. Device sizes (page, sector, block) are powers of two in the C (masks), here any positive number. Simplifications: NULL-pointer checks are dropped; 32-bit address arithmetic is exact except in the copy check, i.e. a region handed to these functions is taken to end inside the address space.
* `FwUpdate` — Models core/firmware/firmware_update.c, with the boot-time calls of core/firmware/firmware_update_handler.c, core/firmware/firmware_update_handler_revoke_after_reset.c and core/firmware/restore_active_handler.c. All regions lie on one flash memory (regions on several devices are parts of it), with one block and one page size. Flash functions are those of FlashUtil_Model and FlashUpdater_Model. What happens outside the module in a call is decided by an oracle: whether the call fails, and the device faults during it. A flash operation that fails or is interrupted may leave anything in the blocks it worked on. A power loss is an oracle for which every call fails from then on, followed by a boot. The format of firmware images is a parameter: what [load], [verify] and the queries report about the image at an address. The device keeps the lowest manifest ID that is still allowed; an image with a lower one does not verify. Simplifications: NULL-pointer checks, logging and status notifications are dropped; 32-bit address arithmetic is exact, i.e. regions end inside the address space; the finalize hook of a platform only changes the bytes in front of the image.
* `Heap` — Models core/memory_mgmt/heap_with_defrag.c, at the level of its pointers. The control blocks in memory (heap_with_defrag.h:25-30) are four maps from the address of a control block to its fields; user bytes are a separate map, and what is needed for that (writes to control blocks never touch the contents of live blocks) is proved. Addresses and sizes are [N]; [W] is the number of values of a size_t (additions and multiplications of sizes wrap at [W]) and [HL] is HEAP_WITH_DEFRAG_CTRL_BLOCK_HEADER_LEN, so that both 32-bit and 64-bit targets are covered. NULL is 0. Loops over the lists take a fuel argument; running out of it is a separate outcome.
* `Hmac` — Model of the HMAC functions of core/crypto/hash.c, of core/crypto/kdf.c and of core/crypto/hkdf.c. The hash engine is the one of core/crypto/hash_mbedtls.c as seen through struct hash_engine (hash.h:60-237): it is idle or collects the data of one digest. Every call of it may fail, and a call that fails while data is collected leaves arbitrary data behind. The digests themselves are an arbitrary function. Simplifications: handles, output buffers and the derivation key are not null, other pointers may be; lengths are natural numbers, apart from the 32-bit lengths and counters that are part of hashed data; local buffers that are cleared on every way out (round_hmac, t, new_prk) do not appear in the results.
* `HostFw` — Host firmware utilities: core/host_fw/host_fw_util.c. Addresses and lengths are 32-bit (uint32_t, and size_t on the target); the sums and differences the code computes with them wrap. The device operations are those of FlashUtil_Model, with the same fault functions. Loops whose exit depends on the region lists get as much fuel as there are regions; [None] as a result says that the fuel ran out, which HostFw_Walk_Proofs shows to mean that the C loop never ends. Simplifications: NULL checks of the arguments are dropped, memory allocation succeeds, and get_device_size is a parameter that does not fail.
* `HostProc` — Protection of a host processor with two flash chips: core/host_fw/host_processor_filtered.c, host_processor_dual.c, host_processor_dual_full_bypass.c, host_flash_manager.c, host_flash_manager_dual.c, host_state_manager.c and core/spi_filter/spi_filter_irq_handler.c. What is abstract. The content of a chip is a value of a type [C], a PFM one of [P] and a recovery image one of [Img]. What the flows do with them is only to look a firmware version up ([lookup]), to verify the images ([valid]), to compare the image lists of two PFMs ([same]) and to program a recovery image onto an erased chip ([applied]). The functions behind these (host_fw_util.c) are modelled byte for byte in HostFw_Model. What can fail. Every call to the SPI filter, to the host control, to a flash chip or to the PFM manager takes one answer from the oracle: it says whether the call fails, whether a call that fails had its effect all the same, and what a write leaves on the chip. The loops that retry until a call succeeds run at most [fuel] times; [None] as a result says that the flow is still in such a loop, and the state is the one at that moment. Simplifications: the arguments are not NULL; the calls on the host state cannot fail (they only fail on NULL); logging, observers and the reset line of the host are left out; a flow runs with the lock held and takes the flash away from the host before it looks at the chips, so what the host does comes between the flows; the regions of [lookup] are the merged ones that host_fw_config_spi_filter_read_write_regions_multiple_fw passes to the filter (HostFw_Model).
* `Ide` — * Model of the IDE key management responder (encryption of PCIe links) core/pcisig/ide/cmd_interface_ide_responder.c:11-60 and core/pcisig/ide/ide_commands.c: all four requests, in the buffer of the message. Modelled: the buffer from the payload on, which request and reply share; every check in its order; the loops over register blocks with what they write; the keys passed to the driver and what is left of them. External: the driver, with any result of its calls. Simplified: pointers are not null; the reply is the first bytes of the buffer. A write past the end of the buffer is [Over].
* `Impactful` — * Model of updates that affect the host (core/firmware/impactful_update.c) With impactful_update_handler.c (execute) and firmware_update_observer_impactful.c. Any number of tasks call the manager at the same time, and the expiration timer runs its callback in a task of its own. Code that holds the lock is one step, as is each call to the timer; anything may happen between steps. A timer may fire late, at any time after it is due. Simplified: pointers are not null; there is at least one check (impactful_update.c:156, 188); a timer that cannot be armed or disarmed stays as it was; the debug log is not modelled.
* `Intrusion` — Models core/intrusion/intrusion_manager.c, intrusion_manager_async.c and authorized_execution_reset_intrusion.c. One step is one call of the manager, a notification of the asynchronous manager, or a restart. The recorded intrusion state (struct intrusion_state) is one bit that survives restarts; each of its calls, and each update of the PCR, may fail, and a failed call that sets or clears the bit may or may not have done so. The PCR is the last value that was measured. Simplifications: the version and the ID of the measurement, locks and the log are not modelled; a manager whose initialization failed is not used until the next restart.
* `KeyCache` — Models core/keystore/key_cache_flash.c and of the part of core/keystore/ephemeral_key_manager.c that drives it. Simplifications: the flash store behind the cache is one cell per block (C07 says what the real stores guarantee); what the store reports and what really happens to the cell on a failure are chosen by the environment, call by call. Pointers are never null. Debug log entries are dropped. add and remove hold a lock for their whole body, so they are atomic here. [R] requestors, [C] credits for each and [S] flash blocks are the construction parameters.
* `KeyWrap` — AES key wrap: core/crypto/aes_key_wrap.c and aes_key_wrap_with_padding.c. The block cipher is a parameter: one 16-byte block in, one out, or an error from the engine. Simplifications: NULL-pointer checks are dropped; lengths are unbounded (no size_t or int overflow, which needs buffers of more than 2 GiB); the caller's input is a separate value, which is what the memmove into the output buffer makes of overlapping buffers.
* `Keystore` — * Model of the keystore in flash (core/keystore/keystore_flash.c) The keystore sits on a block store, FlashStore_Model, with whatever protection that has. Modelled: the calls of the block store, the memory for the key, the codes that are replaced and what the caller gets. Simplified: pointers are not null and key ids are not negative; the faults during the two calls of one load are those of one device state.
* `ManifestKey` — Models core/manifest/manifest_verification.c: the keys that manifests are verified with, and their revocation. Keys are the bytes of struct manifest_verification_key_header with the public key and the signature of the root key behind it, for public keys of [plen] and signatures of [slen] bytes. Signature verification is arbitrary: [endorsed] for keys, [sig_ok] for manifests, [key_ok] for keys the verification works with; any call may fail. The keystore has a key or not (KEYSTORE_NO_KEY and KEYSTORE_BAD_KEY are treated alike, line 323). The device is restarted with any firmware, that is, any default key. Simplifications: the signature of the default key is at its end (manifest_verification.h:52-62); pointers are not null; the memory of the stored key is not modelled.
* `ManifestMgr` — Models core/manifest/manifest_manager_flash.c: two flash regions for manifests of one kind, an active and a pending one, with what core/state_manager/state_manager.c keeps about them. The regions are on one flash (regions on two devices are two parts of it), which is written and erased as in FlashUpdater_Model and FlashUtil_Model with any device faults. Verification of the manifest in a region is a function of the contents of the region and of what happens meanwhile (failures of reads and engines, the keys); a manifest is taken to lie inside its region. It gives what the manifest object keeps: the identifier, the platform and whether the manifest is empty. Calls that use the flash after they release the lock, and the call that reads the region again after it, are separate steps, so that calls of other threads can come between. The active region is kept in memory and written to flash by a step of its own; a reboot starts with what was written last. Not modelled: NULL arguments, observers, the port number, log messages, and failures to save the active region (the state manager only rejects unknown regions). Platform identifiers are C strings, given without the terminator.
* `Manifest` — Manifests on flash: core/manifest/manifest_flash.c. The flash may be changed by somebody else at any time: [rd k a n] is what the [k]-th access of an operation reads as the [n] bytes at [a], or [None] for an error. Accesses that leave the device fail. A failure of the hash engine has the same effect as a failed read and is part of it; [eng k] says that the [k]-th other use of an engine (starting or finishing a hash, verifying a signature) works. Simplifications: NULL pointers are not given; hashes are kept as lists of their length instead of arrays of the maximum length; an error is only told apart where a caller does so; the digest a caller may ask for is the one kept in the state. A range to hash that leaves the device is refused at once rather than after the part inside it has been read, which has no effect that remains.
* `MctpAsync` — Requests sent by this device: mctp_interface_send_request_message, the check of response packets and mctp_interface_handle_response_message in core/mctp/mctp_interface.c, at the granularity of their locks. One receiving thread processes packets; any number of threads send requests and are serialised by request_lock. Each label below is one critical section or one unsynchronised step; any interleaving of enabled labels is a schedule. Requests are numbered in the order in which they get request_lock; request [i] has its own response descriptor. The semaphore is abstracted: the wait can end at any time, by a post or a timeout.
* `Mctp` — MCTP over SMBus: core/mctp/mctp_base_protocol.c, core/mctp/mctp_interface.c (receive path and packetising), the transmission unit of core/cmd_interface/device_manager.c and the packet loop of core/cmd_interface/cmd_channel.c. Simplifications: NULL-pointer checks and logging are dropped; SMBus addresses and EIDs are numbers; the request handler, and the question which message types it supports, are parameters; the command timeout adjustment and the channel number are left out. The requester's side of mctp_interface_send_request_message, with its locks, is modelled in MctpAsync_Model.v; here it appears as the fields saying which response is expected.
* `Measure` — * SPDM measurement blocks (core/spdm/spdm_measurements.c) Modelled: the measurement count, one block, the record of all blocks, its length, and the summary hash, down to the bytes in the buffer, over the PCR store of core/attestation/pcr_store.c seen as a list of PCRs, each a list of measurements (none for an explicit PCR). What the store returns for a measurement is in Pcr_Model; here it is given: raw data, digest, value type and whether it belongs to the TCB. Not modelled: null arguments, the same hash engine passed twice, and data changing between asking for its length and reading it.
* `Observable` — Models core/common/observable.c, at the level of its list entries. List entries are two maps from the address of an entry to its fields; [taken] is the set of entries that are allocated and not yet freed. platform_malloc is an argument of the call: the address it returns, 0 for failure. Walking the list takes fuel, and following a pointer to an entry that is not allocated is a separate outcome. The lock serialises the calls (a plain mutex: a callback that adds or removes observers deadlocks), so each call is one step.
* `OcpRecovery` — Models core/recovery/ocp_recovery_device.c, the device side of the OCP recovery protocol, and of core/recovery/ocp_recovery_smbus.c, its transport over SMBus. The device exposes a list of memory regions ("component memory spaces"): plain memory, a variable-length region behind an interface (a log), or a region of a flash device. Any memory access outside the object it belongs to has the outcome [Wild]. Simplifications: all flash regions are on one flash device with one sector size; the memory regions do not overlap and each flash region has its own erase pointer; the structures are in little-endian order (they are copied to the wire as they are in memory); the functions are called by one task, as the bus driver does; NULL arguments are left out; debug log entries are left out; size_t is unbounded (uint32_t wraps are modelled). Return codes of the hardware and flash interfaces are inputs of the step that calls them.
* `Pcr` — Models core/attestation/pcr.c and core/attestation/pcr_store.c: measurements, the computed PCR, and the two logs built from them. NULL arguments and mutexes are not modelled (every function takes the bank lock around the accesses modelled here, so calls are atomic). A [size_t] is a [nat]; the places where the code lets an unsigned subtraction wrap are separate cases. Return values are counts or an error code.
* `Periodic` — * Model of the periodic task core/system/periodic_task.c:15-90: preparing all handlers, and choosing and running the next one. Modelled: both functions, with missing handlers and missing prepare functions. External: the time a handler wants to run next, and what is left until then or a failure to tell (platform_get_timeout_remaining). Simplified: execute and prepare are recorded by the position of their handler. The list is not null.
* `PrepUpdate` — * Model of the authorized preparation of a firmware update core/firmware/authorized_execution_prepare_firmware_update.c:63-193: checking the payload, and executing it. Modelled: the payload byte by byte; the calls of the update control in order; the wait, as a list of what each look at the status and the clock gives. External: the update control and the clock, with any results. Simplified: pointers are not null; log entries are left out. A wait for which the list of looks is too short has not ended: [None].
* `RamLog` — Models core/logging/logging_memory.c: a circular log of fixed-size entries in memory. The lock is not modelled: every function holds it from its first to its last access of the state, so each call is one atomic step. Pointers are assumed non-NULL.
* `RecoveryImage` — Models core/recovery/recovery_image.c, core/recovery/recovery_image_header.c, core/recovery/recovery_image_section_header.c and core/common/image_header.c: recovery images in flash, their verification and how they are programmed into the flash of the host. The image is in a flash of [size] bytes; a read that starts at [a] fails if [rbad a], and every read beyond the end of the flash fails. [nomem n] says that an allocation of [n] bytes fails. The hash and the signature check are functions of the bytes they are given. Reads of the header data beyond the allocated buffer are an outcome of their own, [Oob]. size_t and the addresses have 32 bits and wrap; `rem_len` is an int, and its conversion from size_t wraps as well. Loops take a bound on the number of rounds and give [None] when it is not enough. The copy into the host's flash is copy_region of FlashUtil_Model. Not modelled: NULL arguments, a hash buffer that is too small, failures of the hash engine.
* `Recovery` — Models core/recovery/recovery_image_manager.c. Both regions are on one flash (regions on two devices are two parts of it), which is written and erased as in FlashUpdater_Model and FlashUtil_Model with any device faults. Verification of the image in a region is a function of the contents of the region and of what happens meanwhile (engine failures, the active PFM); an image is taken to lie inside its region. Calls that use the flash after they release the lock, and the call that reads the region again after it, are separate steps, so that calls of other threads can come between. Not modelled: NULL arguments, observers (a notification hands the image out and takes it back), the port number, and failures to save the active region (the state manager only rejects unknown regions).
* `Rma` — * Model of the transition to RMA (core/rma) rma_unlock_token.c, secure_device_unlock_rma.c and authorized_execution_rma.c, with signature_verification_verify_message and what it calls in core/crypto/signature_verification.c. The device UUID, the hash engine, the verification engine and the device handler that makes the transition are external: each may fail at will, and every call made to them is recorded. A read outside of the token is [ROver]. Simplified: pointers are not null; integers are little endian; a hash that was started is active until it is finished or cancelled; wiping the digest and the debug log are not modelled; neither is cmd_interface_rma.c.
* `Session` — Models core/cmd_interface/session_manager.c and session_manager_ecc.c. Simplifications: pointers are never null, except the HMAC of a reset and the keystore; secrets on the stack are not modelled after their last use (they are cleared). Cryptography is arbitrary functions; every engine, allocation and keystore call may fail, as chosen by the environment.
* `SpdmSession` — Models core/spdm/spdm_secure_session_manager.c, and of the parts of core/spdm/cmd_interface_spdm_responder.c and core/spdm/spdm_commands.c that open, use and close SPDM sessions. One step is one call of process_request. Messages are in a buffer with the payload at an offset, as in struct cmd_interface_msg; accesses outside of the buffer are [Fault]. AES-GCM is given by [seal], [tag] and [opn]; every call of the engine may fail. Derived keys come with the request that has them derived, and are arbitrary. What handlers answer, and whether they fail, also comes with the request. Simplifications: AES-256-GCM, the only supported cipher suite, was negotiated; there is no key update, so that backup keys are never valid (spdm_secure_session_manager.c:929); transcripts, secrets and observers are not modelled; a session that is created is either in the handshake when the request is done or released again (spdm_commands.c:3950-3966); a failed decryption leaves the buffer as it is; locks are not modelled.
* `SpiFlash` — Models core/flash/spi_flash.c, the driver of a SPI NOR flash device: configuration from the device properties, reading, programming, erasing and switching the address mode. The device on the other side of the bus is modelled too (see [exec]): it programs within a page of 256 bytes and wraps at its end, needs a write enable before each program or erase command, ignores everything but the status registers while it is busy, and takes the number of address bytes its mode and the opcode ask for. A transfer with another number of address bytes has the outcome [Garbled]. Simplifications: the SPI master supports all address modes; the properties come from the SFDP tables as they are (spi_flash_sfdp.c is not modelled); dummy and mode bytes and dual/quad transfers carry the same address and data and are left out; the read, program and erase opcodes are represented by whether they are the explicit 4-byte variants; device reset, power down, block protection and quad enable are left out; a program or erase command takes effect at once and then keeps the device busy for an arbitrary, finite number of status reads; the lock is held during each function, so each is one step.
* `StateMgr` — Non-volatile state manager: core/state_manager/state_manager.c. Two consecutive flash sectors hold 8-byte entries. Each entry repeats a 16-bit state word three times, followed by a zero word. The flash is a byte map (Flash_Base); `uint16_t` values are stored little-endian, the byte order of the target. Simplifications: flash reads always succeed; the debug log entry created when an erase fails is dropped; locks are dropped, so each call is one atomic step. Bits 6 and 7 of volatile_state, the only ones this file uses, are two booleans.
* `Tdisp` — * Model of the TDISP responder (assigning device interfaces to virtual machines) core/pcisig/tdisp/cmd_interface_tdisp_responder.c:33-128 and core/pcisig/tdisp/tdisp_commands.c: all seven requests and the error reply, byte by byte, with every check in its order; and the nonces kept by the context manager (tdisp_tdi_context_manager.c:16-48). External: the driver (what its calls return, and which contexts it clears while it is called), the random number generator, and failures of the context manager. Simplified: of a context only the nonce is kept, present if its bit in the mask is set, which is all the responder uses. A request is its payload; the reply is the payload afterwards, whose length is compared with the room by a theorem. Pointers are not null.
* `Tpm` — Models core/tpm/tpm.c: storage segments, the non-volatile counter and the delayed clear of the TPM storage. The flash store below is an abstract array of blocks (flash_store.h; its implementations are modelled elsewhere): a block holds data or none (no data or corrupt data). Reads can fail; a write that fails leaves the old data, the new data or none, as after a power failure. Simplifications: the store accepts any length up to its limit; get_num_blocks does not fail; nothing is logged; the buffer has room for the header (tpm.c does not check this).
* `Transcript` — Models core/spdm/spdm_transcript_manager.c: the hashes of SPDM messages that signatures and session keys are made of. The hash engines are modelled after core/crypto/hash_mbedtls.c and projects/linux/crypto/hash_openssl.c: an engine has at most one hash in progress, and refuses to start another one; [HASH] is an arbitrary hash function. Every call of an engine may fail; a failed update may have taken part of the data ([junk]). An access of a session or an engine that is not there is the outcome [None] of a step. Simplifications: pointers are not null; algorithms are numbers; the size of the buffer for the hash is part of whether the engine succeeds.
* `Unseal` — * Model of unseal requests core/cmd_interface/cerberus_protocol_optional_commands.c:649-716 (cerberus_protocol_unseal_message), the accessors of cerberus_protocol_optional_commands.h:830-919, and the part of cmd_background_handler_execute that takes a request apart (core/cmd_interface/cmd_background_handler.c:304-333). Modelled: every check in its order, with pointers as offsets into the buffer that holds the message, and reads outside that buffer as a separate outcome. The buffer may be longer than the message; what follows the message is left over from earlier ones. Simplified: offsets do not wrap (the lengths are 16 bits wide and the buffer is far from the end of the address space).
* `VirtualFlash` — * Model of a flash device in memory core/flash/flash_virtual_ram.c:9-115: reading, writing and erasing. Modelled: the buffer with every check; a write past its end is [Overrun]. Simplified: pointers are not null; calls hold the lock and so are atomic; addresses are numbers without a bound (they are compared to the size before they are used).

## What is not modelled

Hardware drivers, the platform layer and the RTOS (interleavings are modelled where a property is about them: MCTP requests,
the recovery image manager and the manifest manager), real cryptography (arbitrary functions; the theorems say what they are assumed to
satisfy), timing, and the parts of `core/` that no model file cites: the contents of manifests (PFM, CFM, PCD) above their common
format, the attestation
requester, SPDM, DICE and X.509, the TPM emulation above its storage, hosts with a single flash chip and the driver of the SPI filter, the command dispatchers,
and the tasks that queue requests.  `NULL`-argument checks are not modelled.

## Findings

Where the code does not satisfy a property in full, the theorem states what does hold and a `_refuted` theorem exhibits
the failure on the model:

* `C82_missing_store_refuted`: An entry that is NULL is reported as missing storage by calls on blocks, but erase_all and the queries use it: whatever the stores before it are, unless one of them fails.
* `C82_flash_size_refuted`: The size is summed without a check: four stores of 1 GB report that they use no flash.
* `C33_header_length_refuted`: The length of the token given in the header is not compared with the length of the token, although the data for the operation is found with it: with a longer one, the operation is given bytes of the signature that nobody signed (here the last byte).
* `C33_tag_refuted`: The tag in a token is not checked when it is used: a token handed out for one operation also authorises another one.
* `C33_global_replay_refuted`: Data that is signed for every device is accepted any number of times.
* `C60_length_wraps_refuted`: For a quarter of the range of size_t the length wraps around: a gigabyte of data is encoded into a buffer of one byte.
* `C09_compare_empty_refuted`: An empty array is reported smaller than a non-empty one even when both denote zero: the claim does not extend to empty arrays.
* `C37_interleaved_refuted`: While the bus is busy the lock is given up (cmd_channel.c:198-203), so another message can be sent between two packets of one.
* `C37_packet_size_refuted`: The packet size of a message is not checked against the packet buffer (cmd_channel.c:180-181).
* `C37_valid_processed_refuted`: A packet without any error is thrown away if an overflow came before it, also when it belongs to another transaction (cmd_channel.c:260-267).
* `C76_complete_refuted`: The full statement fails: restoring the defaults of a device that has bypass manifests and nothing else clears them all and then reports that there are no manifests, because the status of clearing the (absent) component manifests is what is returned (config_reset.c:142-145, 182).
* `C87_lost_refuted`: REFUTED: that increments by several tasks are all counted. The lock is not held between the read and the write: two increments can count as one.
* `C87_shift_refuted`: REFUTED: that counting is always defined. After 32767 increments of the counter of the first component the next one shifts into the sign bit of an int.
* `C14_block_of_256_refuted`: The length parameter is a uint8_t: for a block of 256 bytes the code is 0 whatever the data, so single-byte damage goes unnoticed.
* `C57_empty_integer_refuted`: An INTEGER without contents: a byte is read that is not part of the item, and after the end of the data if nothing follows.
* `C57_long_oid_refuted`: A length of nearly four gigabytes wraps around in the check against the size of the data: an object identifier of that length is reported in data of six bytes.
* `C57_zero_length_refuted`: Such a length also makes the length of an item zero.
* `C58_not_canonical_refuted`: Not only DER is accepted: negative numbers are taken for positive ones, and numbers may have too many bytes, or none, so that one signature has several encodings.
* `C59_padded_key_refuted`: The byte of padding is not counted when the length that is left is reduced (ecc_der_util.c:322-323, 339-340 and 371): a truncated private key leads to a read after the end of the data.
* `C59_not_canonical_refuted`: The lengths of the items around are not compared with what is in them, the number of unused bits is ignored, and one byte may follow the point: other data than DER is accepted as a public key.
* `C66_huge_oid_refuted`: So the counter is taken from a token with a malformed OID.
* `C66_counter_length_refuted`: A counter of 256 bytes is accepted by device_unlock_token_init, but its length does not fit in the byte for it: the authority reads an empty counter from the token.
* `C66_token_length_refuted`: The length given for the token in the unlock data is not compared with the length of the active token: if the authority signs such data, the token that is parsed from it is not the token that was checked.
* `C78_padding_refuted`: The bytes that fill up a reply are not cleared: they are what was in the buffer, here two bytes of the request (doe_interface.c:71).
* `C78_error_reply_refuted`: If a reply cannot be sealed, the responder leaves its error reply eight bytes further back, and what is sent over DOE is not the error reply but bytes of the request (cmd_interface_spdm_responder.c:161-171, doe_interface.c:271). The session is an established one.
* `C71_cancel_refuted`: With cancellation an accepted event can be lost for good.
* `C35_hidden_refuted`: A restart between the erase of the first sector and a write to it hides the rest of the log: it reads as empty although its size is not 0.
* `C35_partial_write_refuted`: C35: a write that stops inside the marker that ends a sector makes the next read go outside the buffer.
* `C07_init_overflow_refuted`: Without those assumptions the set-up is accepted although the blocks overlap or lie beyond the device: the products are computed in 32 bits ...
* `C07_init_decreasing_refuted`: ... and for blocks of more than one sector growing downwards the first block is never checked against the device size.
* `C07_old_header_refuted`: Stores that use the old header (the length alone): data of more than 42239 bytes can be misread, because the high byte of the length is taken for the marker of the current header.
* `C08_torn_header_refuted`: For blocks of 65280 bytes and more a torn header write is not detected: the block then reads as data of a length that was never written.
* `C31_write_past_announced_length_refuted`: The write call only checks the size of the region, not the announced length: data beyond the part that was erased is reported as written but does not read back.
* `C31_unchecked_offset_refuted`: Applying an offset larger than the region is not checked: the updater then accepts writes outside the region.
* `C42_any_request_refuted`: Full statement of C42: no request needs to be held back. Wrong if a restore of the active image is asked for while the recovery image is recorded as bad: a passing failure to read the good recovery image at boot sets that flag, the restore erases the active image and fails, and the next update then starts by erasing the recovery image.
* `C42_page_size_refuted`: Full statement of C42: flash of any kind. Wrong if a flash may fail to report its page size: the write of the recovery image then ends before it starts, but the image is recorded as good.
* `C44_stale_manifest_refuted`: Full statement of C44: the oldest allowed manifest after an update is that of the new image. Wrong if a key manifest describes the image loaded last and the recovery image is backed up: the update revokes up to the old image.
* `C43_digest_refuted`: Full statement of C43 for an updater that needs a digest: every image it installs was authorised by one. Wrong after a restart: what was staged before is installed without a digest, and none of the announced bytes needs to arrive.
* `C43_short_digest_refuted`: A digest that is shorter than the hash only covers its prefix: images with one prefix of the hash pass alike.
* `C24_rounding_refuted`: The heap has no check for requests beyond that. On a fresh heap, asking for the largest size (which wraps to zero when rounded) yields a block with no usable byte.
* `C24_header_refuted`: Asking for the integer limit less the size of a control block yields a block whose control block starts at the end of the heap, so that the control block itself is written outside the heap.
* `C24_product_refuted`: A zeroed allocation whose item count times item size wraps to zero yields a block with no usable byte: for instance [2] items of half the range each.
* `C56_empty_key_refuted`: Asked for no key at all, the KDF returns a status that was never set.
* `C56_unsupported_hash_refuted`: Called directly with a hash that the build does not have, HKDF-Expand clears more bytes than its block has.
* `C56_null_salt_refuted`: The interface says that the length of a null salt is ignored; with another length than zero the extraction fails.
* `C56_refused_extraction_refuted`: The interface says that an extraction erases the key of the one before; one that is refused for its arguments does not.
* `C27_overlap_refuted`: Overlapping regions: the walk continues at the end of the first, so the rest of a region that starts inside it is taken for unused space.
* `C27_empty_region_refuted`: An empty region: the walk does not get past it.
* `C28_longer_authenticator_refuted`: Only as many bytes as the first authenticator has are compared, so a difference near the end of a longer one goes unnoticed...
* `C28_shorter_authenticator_refuted`: ... and bytes past the end of a shorter one, which mean nothing, make the lists different.
* `C28_overlap_refuted`: Regions starting inside another one are not compared.
* `C28_endless_refuted`: A list with an empty region is compared with itself for ever; so is one with a region that ends at the end of the address space.
* `C29_shared_block_refuted`: Components that share an erase block: the second one's erase destroys what was migrated for the first, and success is reported.
* `C29_restore_shared_block_refuted`: The same for the regions of one component when they are restored.
* `C29_overlap_refuted`: A region that starts inside another one is not migrated past the other's end.
* `C30_empty_region_refuted`: An empty region at address 0 makes the whole flash writable: an end of 0 is the end of memory.
* `C30_end_of_memory_refuted`: A read/write region up to the end of the address space, which the filter's interface supports, is configured again and again.
* `C50_rollback_after_failed_power_on_refuted`: After a failed power-on the rollback that host_irq_handler_power_on tries next gives the host the flash whatever comes of it.
* `C50_soft_reset_after_failed_power_on_refuted`: The same for a reset of the host, when a pending PFM has arrived since.
* `C50_power_on_clear_failure_refuted`: When the empty PFM asks for bypass but the PFMs cannot be removed, power-on reports an error and gives the host the flash unverified; the active PFM is still there and bypass is not recorded.
* `C50_power_on_unsupported_flash_refuted`: Flash chips that are not supported are handed to the host without verification.
* `C48_failed_recovery_refuted`: The restriction [tidy] in C48 is needed: a recovery image that could not be programmed leaves the host booting from whatever is on the chip.
* `C48_rollback_without_pfm_refuted`: Nor does the rollback without a PFM verify what it copies over the boot chip.
* `C49_failed_activation_refuted`: When a pending PFM was accepted and cannot be activated, the device goes on with an active PFM that does not accept what the host runs.
* `C84_key_left_refuted`: REFUTED: that a key never stays behind. A KEY_PROG with one byte too many is refused by its acknowledgement, but its key and IV stay in the buffer of the message.
* `C84_old_bytes_refuted`: REFUTED: that a reply has only what the requester sent and the status. A KEY_PROG of a single byte is acknowledged with five bytes that an earlier message left in the buffer.
* `C84_query_overrun_refuted`: REFUTED: that a query in a message too small for the reply is refused. The header of the reply is written before the room is checked: in a buffer of three bytes this writes past the end.
* `C81_deadlock_refuted`: The callback of the timer runs with the lock of the timer and takes that of the manager; authorizing an update takes them the other way round. If an authorization expires while it is being renewed, both tasks wait for each other, and every later call waits too.
* `C70_lost_refuted`: If an intrusion cannot be recorded, the next check reports that there was none (intrusion_manager.c:58, 129).
* `C70_stale_refuted`: With asynchronous checks, the answer to a check from before an intrusion hides the intrusion although it is recorded: notifications are applied in the order in which they come (intrusion_manager_async.c:48-52).
* `C70_digest_refuted`: If the measurement of an intrusion fails, the PCR goes on saying that there was none, although the data beside it says otherwise.
* `C26_add_when_full_refuted`: Adding to a full cache is not always answered as such: after a key was removed and replaced, it is reported as memory corruption and shuts the cache down although the device works.
* `C26_all_keys_found_refuted`: A key stored in the last block is not found: the cache starts empty although a readable key is there.
* `C26_failed_erase_refuted`: If the erase of a removed key fails and leaves the key readable, with no spare block left the periodic task initialises the cache again and the same key is handed out to another requestor.
* `C26_too_few_blocks_refuted`: The error state for too few usable blocks is missed when the only bad block is the last one.
* `C79_erased_refuted`: In a store of fixed-size keys without protection an erased key is loaded as if it had been saved: its bytes are those of erased flash.
* `C68_check_failure_refuted`: A key that cannot be checked when a manifest is activated is not saved, and no update is blocked: without the condition that the check works, an update is allowed although the new firmware rejects the active manifest.
* `C68_restart_refuted`: That the key could not be saved is forgotten when the device restarts: an update is then allowed although the new firmware rejects the active manifest.
* `C68_lost_key_refuted`: If the keystore loses its key, say because power fails while a key is saved, revoked keys are accepted again by firmware that has them as default key.
* `C47_post_verify_refuted`: If the users of the manager refuse a manifest after it has been verified, the call fails but the manifest stays pending, and can be activated.
* `C47_lost_reference_refuted`: An activation between the two halves of a call that gets the active manifest: the call returns nothing and still keeps its reference, so that the region cannot be cleared again until a restart although nobody has its manifest.
* `C47_unprotected_manifest_refuted`: A verification between the two halves of a call that gets the pending manifest: the call returns the manifest without a reference, and the region is then erased while the manifest is in use.
* `C54_power_loss_refuted`: An activation is in memory only until the state is stored in the background: a restart before that brings the old manifest back, although the call that activated the new one succeeded.
* `C45_v1_header_refuted`: The older format is hashed from the flash after its header was read from there: if the flash can change in between, what is kept of the header, such as the identifier, need not be what was signed.
* `C45_element_outside_refuted`: An entry need not point into the signed part: one that has no hash either may give data that nobody signed.
* `C46_offset_wraps_refuted`: Without a hash for the entry, an offset into the element that reaches over 64 KB gives other data.
* `C46_unprotected_refuted`: An entry without a hash is not protected after the verification: what is read is what the flash then holds.
* `C19_null_dereference_refuted`: Otherwise: the requester times out and returns after the last packet was checked and before the response is handled, which then reads through a NULL response_msg.
* `C19_wrong_request_refuted`: Or another request has been sent by then, and gets the response to the first one as its own.
* `C15_long_packet_pec_refuted`: The block length of the CRC routine is a uint8_t: for a byte count of 254 the CRC of the empty string is compared. The command channel's packets are too short for this, other callers are not.
* `C18_small_unit_refuted`: Nothing checks the transmission unit a device announces: one of a single byte makes a 70-byte response overwrite itself before it is sent.
* `C61_block_of_255_refuted`: Violated for a block of 255 bytes: the number of bytes given to the checksum is a uint8_t and becomes 0. The block with the correct packet error code is refused as damaged; with the code of the two bytes before the block it is accepted, whatever the block contains.
* `C61_stale_command_refuted`: Violated: a command code sent alone stays active when the next code is refused; the read that follows is answered by the old command.
* `C61_status_mixed_refuted`: Violated: an unknown command sets one bit of the protocol status that is already there; after an unsupported parameter (2) the status shows a length error (3), although no length was wrong.
* `C62_other_region_erased_refuted`: Violated with two regions in flash: the initialisation gives every flash region the base address of the first one as the place to erase next. A write to the second region at an offset other than 0 erases a sector of the first, here one that may only be read; all is reported as done.
* `C62_init_unchecked_refuted`: Violated: the size of the flash is compared with the end of the first region only; a second region beyond the end of the device is accepted.
* `C62_init_wild_refuted`: Violated when the first region is memory and a later one is in flash: the initialisation uses the data pointer of the first region as a flash interface.
* `C63_jump_refuted`: Violated when a flash region is written from an offset other than 0: the sector erased is the one at the erase pointer, not the one written, and the data are lost; all is reported as done.
* `C63_short_write_refuted`: Violated when the flash device programs fewer bytes than asked and says so: the number it returns is not compared, the rest of the piece is lost.
* `C22_empty_flash_region_refuted`: C22 does not hold for an empty flash region, which pcr_set_measurement_data accepts: reading the log past the record of that measurement returns flash bytes from outside the region.
* `C22_null_memory_refuted`: Nor for memory data with a NULL pointer and a non-zero length: the offset wraps below zero.
* `C85_starved_refuted`: REFUTED: that every handler is run at some time. While the first handler is ready each time, no other is run, however long its time is past.
* `C89_stuck_refuted`: REFUTED: that execution always ends. Without a timeout it waits as long as the update control reports progress, whatever the clock says.
* `C03_stale_memory_refuted`: The memory must have been cleared before its first use: on memory that still holds an older log, a log started without recovering it and then warm reset shows stale entries as its oldest ones.
* `C41_short_header_refuted`: An image that is not signed makes the device read beyond the header it has allocated: a header of format 0 that is shorter than this format is parsed before its length is checked.
* `C41_other_format_refuted`: The same holds for the platform identifier in a header of another format than 0.
* `C41_endless_refuted`: Verification of a signed image need not end: with a section of 2^32 - 16 bytes the same header is read again and again.
* `C41_overlapping_sections_refuted`: A signed image whose contents are not a sequence of sections can be accepted: the length of the second section leads back into the data of the first.
* `C34_lost_reference_refuted`: An activation between the two halves of a call that gets the image is not protected against. With two regions, the call can return nothing and still keep its reference, so that the region can never be cleared again although nobody has its image.
* `C34_unprotected_image_refuted`: With one region, the call can return the image without a reference to it, and the region is then erased while the image is in use.
* `C32_zero_key_refuted`: When the hash engine fails at the end of pairing the session stays established, with an all-zero key: after two such failures two sessions use the same key and IV although all keys agreed were different.
* `C32_failed_pairing_rekeys_refuted`: A pairing that fails, because the key could not be stored, still replaces the session key.
* `C32_replay_refuted`: The same message is accepted any number of times, and the device accepts its own messages as the peer's.
* `C32_header_only_refuted`: A request that is only a header is encrypted, but never decrypted again.
* `C32_long_pairing_key_refuted`: A stored pairing key longer than 32 bytes is written past the end of the array for it.
* `C40_small_buffer_refuted`: With less room than the fixed part of the response, the limit for the key wraps around and the response is written past the end of the buffer.
* `C40_key_at_end_refuted`: The response is also written past the end of the buffer if the key ends just before the end of the buffer.
* `C40_signature_at_end_refuted`: The same for a signature that ends just before the end of the buffer.
* `C69_forgery_refuted`: A message that anyone can send, with the id of a session and no valid tag, stops the session: it counts in the sequence numbers, so that the next message of the peer, and all that follow, are refused (spdm_secure_session_manager.c:1042-1048).
* `C69_overflow_refuted`: Over DOE, where max_response is the size of the whole buffer and the payload starts after the transport header, a reply that the handler's limit allows makes the tag be written past the end of the buffer (spdm_secure_session_manager.c:1127, doe_interface.c:149).
* `C69_error_reply_refuted`: If a reply is too long to be sealed, the error reply is written after the headers of the secured message instead of over them, and the bytes that are sent as the reply are not the error reply (cmd_interface_spdm_responder.c:161-171).
* `C69_padding_refuted`: The length of the application data may count its own two bytes, so that two bytes of the tag are taken for application data (spdm_secure_session_manager.c:948-955).
* `C64_failed_write_changes_nothing_refuted`: A write that returns an error may have written everything: when the status cannot be read after the program command, the data are in the flash and the caller is told that nothing was written.
* `C64_mode_while_busy_refuted`: Switching the address mode does not check that the device is ready (spi_flash.c:1882-1925): a device that is still busy, after a write whose status could not be read, ignores the command, and the driver reports the new mode.
* `C64_bounds_refuted`: The bounds check adds the address and the length in size_t (spi_flash.c:57-67): where this has 32 bits, a length close to 4 GiB passes.
* `C06_torn_first_copy_refuted`: The restriction to program operations that got past two full copies is necessary: when only the first copy was programmed, the device starts with a state that was never stored.
* `C05_unreported_erase_failure_refuted`: An erase failure is deliberately not reported by the store. When the current entry carries a damaged marker (here: one whose third copy was never programmed) that loses the new state: the store reports success, and a restart reports the old state.
* `C83_nonce_reused_refuted`: A nonce is not used up by starting: the request that started an interface starts it again, unless the driver clears the context or refuses. (The comment in tdisp_commands.c:543 says that it is cleared; what is cleared is the copy in the message.)
* `C83_error_size_refuted`: An error reply is written without a check of the space for it: a request of 16 bytes with room for 16 is answered with 24.
* `C83_locked_without_nonce_refuted`: If the nonce cannot be kept after the driver has locked the interface, the requester gets an error but the interface stays locked, without a nonce that could start it.
* `C65_counter_read_error_refuted`: A read of the header that fails resets the counter and forgets a pending clear: the calls take every read error for a missing header (tpm.c:104-123).
* `C65_counter_power_refuted`: There is one copy of the header and it is rewritten in place: a power failure while the counter is incremented sets it back to zero.
* `C65_clear_repeated_refuted`: When a segment cannot be erased, the header is written nevertheless (tpm.c:59-68): the data are still there and the clear is no longer pending, so it is never repeated.
* `C65_clear_read_error_refuted`: A start that cannot read the header reports success, keeps all data and forgets the pending clear.
* `C67_th_bounds_refuted`: A message for the TH of a session is not checked for its session if the caller says it is for none: the session is then accessed out of bounds.
* `C67_few_engines_refuted`: With too few engines for a session, a message for it is nevertheless added, with the engine of M1/M2: from then on, whatever is reset, no message can be added to M1/M2 and there is no hash of it.
* `C67_failed_update_refuted`: If the engine fails to take the VCA, the update fails, but the hash is begun: after the message is added again, the hash lacks the VCA.
* `C72_overread_refuted`: The check in front of the HMAC length looks at the ciphertext once more (cerberus_protocol_optional_commands.c:689-690). If the message ends one byte into the HMAC length and fills the buffer, the length is read past the end of the buffer.
* `C88_size_refuted`: REFUTED: that this holds for devices of any size. The size is not checked when a device is made; if it is not a number of whole blocks, erasing the last block writes past the end of its memory.
* `C88_not_flash_refuted`: REFUTED: that it behaves as flash, where a write without an erase only clears bits: a write puts any value over any other.

Seen while reading, outside the theorems:

* `pcr_update_buffer` reads the event type before it checks the index; the event type and the measured data of a constant
  measurement can still change.
* `heap_free` of a block that is already free and was not merged corrupts the free list.
* `observable`: callbacks run under a plain mutex, so a callback that adds or removes observers deadlocks.
* `key_cache_flash`: credits are not reset when the cache is initialised again; the spare index is never used; the check
  of the index in `remove` is off by one; more than 1024 blocks overflow the array.
* `host_fw_util`: more than 255 regions wrap the region ID.
* `mctp_interface`: a control message with the null destination and the device's own source EID updates the device's own
  capabilities.
* `cmd_interface_protocol_cerberus_secure`: the response to a successful delete of a session is encrypted after the
  session is gone and is lost; a plain GET_DIGEST resets a peer's session.
* `logging_flash`: entry IDs restart at 0 after a reboot with an empty log, and IDs of lost entries are reused.
* `firmware_update_set_image_digest` is called from the command thread, not through the event task that serves the other
  requests.
* `firmware_update_prepare_staging`: a failed erase still records the announced length.
* `host_processor_dual_recover_active_read_write_data` does not take the lock the other operations take: called while one of
  them runs, it can give the host the flash between the verification and the swap of the chips.
* `host_processor_filtered_config_rw` stops retrying when a region is not supported: the filter keeps the regions set so far.
* Bypass without `full_bypass` lets the host write all but the last 64 KB.
* `host_state_manager_restore_default_state` sets the boot chip back to the first one at run time without touching the filter:
  until the next power-on the flows verify one chip while the host runs the other.
* A pending PFM whose state cannot be read, without an active one, ends in bypass at power-on.
* `host_flash_manager_validate_offset_flash` uses the version it never set if the PFM has no firmware and the full flash
  is to be verified.
* Verification ahead of a reset is dead code: the states `PREVALIDATED_FLASH` and `PREVALIDATED_FLASH_AND_PFM` are only set with
  `apply_filter_cfg` false, which no caller passes.
* `recovery_image_header_init` parses a header of format 0 before it checks that the header is as long as the format: an
  unsigned image in the recovery flash makes the device read up to 41 bytes and more beyond an allocation.
* The lengths of the sections of a recovery image are added without overflow checks: verification of a signed image may never
  end, or accept sections that overlap.
* If an observer-level check (`post_verify`) refuses a pending manifest, `manifest_manager_flash_verify_pending_manifest` returns the
  error but leaves the manifest valid and pending; an activation then makes it active.
* `manifest_manager_flash` marks a manifest as bad, not as unreadable, for every error of the manifest module, including
  `MANIFEST_NO_MEMORY`: a failed allocation at a start drops the active manifest until the next one.
* `manifest_manager_flash_verify_pending_manifest` ends the update even if not all data has arrived, so that the rest is refused.
* `ecc_der_decode_private_key_no_copy` does not count the zero byte it skips: a private key with padding whose data ends one byte
  early makes it read the byte after the data.
* `asn1_decode_integer` reads a byte of an INTEGER without contents; the lengths of ASN.1 items are `int` and wrap in the checks: an item
  of nearly 2^32 bytes is found in six bytes, and `asn1_get_der_encoded_length` can be zero.
* `ecc_der_decode_ecdsa_signature` accepts negative, padded and empty integers and long-form lengths: signatures are malleable.
* `BASE64_LENGTH` wraps for data of a quarter of the range of `size_t`; the encoder then writes beyond any buffer.
* `ocp_recovery_device_init_state` looks at the first region (`device->cms->`) instead of `device->cms[i]` for every flash region: wrong erase pointers, unchecked sizes, or a data pointer used as a flash interface (C62 refutations).
* `ocp_recovery_smbus_stop` and `ocp_recovery_smbus_transmit_bytes` pass a length of 256 as `uint8_t` for blocks of 255 bytes; the block is then not covered by the packet error code (C61_block_of_255_refuted).
* OCP recovery: the packet error code is optional, a write without it is accepted; `auth_error` in `ocp_recovery_device_write_recovery_ctrl` is not initialised before the hardware call; the rounding of the offset 0xFFFFFFFD and above wraps to 0 without the overflow bit.
* `spi_flash_enable_4byte_address_mode` does not check that the device is ready; a busy device ignores the switch and the driver reports the new mode (C64_mode_while_busy_refuted). All addressed commands of such devices are explicit 4-byte commands, so reads and writes still reach the right address (C64_faults).
* `SPI_FLASH_BOUNDS_CHECK` adds address and length in `size_t` (C64_bounds_refuted).
* `cmd_channel_send_packets` gives up the channel lock between two packets of a message while the bus is busy; packets of another message can come in between (C37_interleaved_refuted). It copies `pkt_size` bytes into the packet buffer without comparing the two sizes.
* `tpm_read_header` takes every read error for a missing header when it may initialise it: a transient read error during `tpm_increment_counter` or at start sets the counter to zero and forgets a pending clear (C65_counter_read_error_refuted, C65_clear_read_error_refuted).
* `tpm_init_header` writes the new header also if segments could not be erased: the clear is reported as failed once and never repeated (C65_clear_repeated_refuted). `tpm_init_state` does not check that the buffer has room for the header.
* `asn1_get_der_item_len` converts the sum of lengths to `int`: an OID length of 0xfffffffa and more in an unlock token wraps around to less than six bytes and is accepted (C66_huge_oid_refuted). The tag of the OID and the format version of a token are not looked at by the parser.
* `device_unlock_token_init` accepts counters of 256 bytes and more, whose length does not fit in the token (C66_counter_length_refuted).
* `device_unlock_token_authenicate` finds the policy with the token length in the data but checks the token with the length of the active one (C66_token_length_refuted); harmless as long as the authority signs only well-formed data (C66_signed).
* `spdm_transcript_manager_update` does not check the session of a TH message if the caller says it is for no session: with a larger index it accesses memory behind the sessions (C67_th_bounds_refuted).
* Messages for sessions are checked against the maximum number of sessions and not against those that have hash engines: with fewer than four engines a session message uses the engine of M1/M2, which can then not be used until the device restarts (C67_few_engines_refuted).
* When the engine fails to take the VCA, a retried update succeeds and the hash lacks the VCA (C67_failed_update_refuted). VCA messages that come after the first message of a transcript are not in its hash either; the specification in the model says so.
* `manifest_verification_on_manifest_activated` ignores errors while it checks the key of the new manifest: the key is not saved, later updates are not blocked, and the updated firmware rejects the active manifest (C68_check_failure_refuted).
* That a manifest key could not be saved is forgotten on a restart, so that the update is no longer blocked and the updated firmware rejects the active manifest (C68_restart_refuted).
* A keystore that loses the manifest key, for example on a power failure while it is replaced, makes revoked keys valid again for older firmware (C68_lost_key_refuted).
* When `manifest_verification_init_state` fails after the stored key was freed (lines 347-384), the pointer to it stays in the state; not modelled.
* `encrypt_message` compares the size of the secured message with `max_response`, which over DOE is the size of the whole buffer, although the payload starts after the 8 byte transport header: replies close to the maximum make the tag be written up to 8 bytes past the buffer (C69_overflow_refuted).
* The sequence number of a session is incremented before a message is checked, so that one forged message with the id of a session, which is sent in the clear, makes all later messages of the peer fail (C69_forgery_refuted).
* If `encode_secure_message` fails before the payload is moved back, the error reply is written 8 bytes too far and the transport sends other bytes as the reply (C69_error_reply_refuted). This is also so for GET_VERSION in a session, which resets the session.
* The length of the application data is compared with the size of the ciphertext instead of that size minus two, so that two bytes of the tag are taken for application data (C69_padding_refuted).
* The 16 bit lengths in the secured message are truncated for replies over 64K; one return path of `spdm_finish` (spdm_commands.c:4131) leaves locks held. Not modelled.
* An intrusion that cannot be recorded is forgotten at the next check, which reports that there was none (C70_lost_refuted).
* With `intrusion_manager_async` the notification for a check from before an intrusion makes the device report "no intrusion" although one was recorded since (C70_stale_refuted).
* If the measurement of an intrusion fails, the PCR goes on to say "no intrusion" (C70_digest_refuted).
* `event_task_freertos_notify` looks at `running` after it has released the lock. After a notification with a null or unregistered handler (the documented way to give up a context) this can wake the task for somebody else's event a second time, and the task then drops an event that was accepted meanwhile, although its submission returned success (C71_cancel_refuted). Keeping the result of the handler lookup in a local variable would avoid it.
* `core/cmd_interface/cerberus_protocol_optional_commands.c:689-690`: the check in front of reading the HMAC length of an unseal request computes the end of the ciphertext header a second time instead of the end of the HMAC header.  A message that ends one byte into the HMAC length is rejected only after the length has been read one byte past the message (`C72_overread_refuted`).
* `core/attestation/aux_attestation.c:374-394` and `core/cmd_interface/cerberus_protocol_optional_commands.c`: the unseal command accepts PKCS#1 v1.5 padding for an RSA seed, but unsealing such a seed always fails (`C74_pkcs15_refused`).
* `core/cmd_interface/config_reset.c:142-145,182`: restoring the defaults of a device with bypass or platform manifests but no component manifests, states, certificates, auxiliary key, recovery image or key store clears everything and then returns CONFIG_RESET_NO_MANIFESTS, the ignored status of clearing the absent component manifests (`C76_complete_refuted`).
* `core/spdm/spdm_measurements.c:139-145,211-214`: neither the number of measurements (254 indices can be used, the index wraps) nor the length of raw data (the 16-bit length fields wrap) is checked; C77 assumes both.
* `core/pcisig/doe/doe_interface.c:71-87`: the bytes that fill up a reply to whole dwords are not cleared, so up to three stale bytes of the buffer are sent (`C78_padding_refuted`).
* `core/pcisig/doe/doe_interface.c:271` with `core/spdm/cmd_interface_spdm_responder.c:161-171`: if a reply in a session cannot be sealed, the error reply lies eight bytes behind where the DOE frame starts its payload, and the requester gets bytes of its own request instead (`C78_error_reply_refuted`).
* `core/keystore/keystore_flash.c:43-66` on a block store of fixed-size keys without digest: an erased key is loaded successfully, as 0xFF bytes, instead of being reported as missing (`C79_erased_refuted`).
* `core/firmware/impactful_update.c:92-101` and `:135-140` with `projects/freertos/platform.c:137-143`, `projects/linux/platform.c:256-259`: authorizing an update takes the lock of the manager and then that of the timer; the expiration callback runs with the lock of the timer and takes that of the manager. If an authorization expires while it is being renewed, both tasks wait for ever, and so does every later call (`C81_deadlock_refuted`).
* `core/flash/flash_store_aggregator.c:142-146,212-215,238-241,264-267`: calls on blocks report a NULL entry of the array as FLASH_STORE_NO_STORAGE (33-36), but erase_all and the queries dereference it (`C82_missing_store_refuted`).
* `core/flash/flash_store_aggregator.c:246-249`: the flash size is summed without a check and returned as int; four stores of 1 GB report 0 (`C82_flash_size_refuted`).
* `core/pcisig/tdisp/tdisp_commands.c:543-546`: the comment says that the stored nonce is cleared after it has been verified, but only its copy in the message is; the same request reaches the driver again (`C83_nonce_reused_refuted`).
* `core/pcisig/tdisp/tdisp_commands.c:269-288`: if the nonce cannot be stored after the driver has locked the interface, the reply is an error and the interface stays locked (`C83_locked_without_nonce_refuted`).
* `core/pcisig/tdisp/tdisp_commands.c:24-37`: error replies of 24 bytes are written without a check of the space, also over requests of 16 bytes (`C83_error_size_refuted`).
* `core/pcisig/ide/ide_commands.c:164-168`: a KEY_PROG of a wrong length is acknowledged with an error, but the key it carries is not cleared from the message as at 192 (`C84_key_left_refuted`), and the acknowledgement of one shorter than 7 bytes returns what an earlier message left in the buffer (`C84_old_bytes_refuted`).
* `core/pcisig/ide/ide_commands.c:46-79`: 15 bytes of the reply are written before the room for them is checked (`C84_query_overrun_refuted`).
* `core/system/periodic_task.c:67-75`: of handlers that are overdue always the first in the list is run, whatever the others have waited; one that is always ready starves those after it (`C85_starved_refuted`).
* `core/cmd_interface/counter_manager_registers.c:85-92`: the lock is released between reading and writing a counter, so that two concurrent increments can count as one (`C87_lost_refuted`).
* `core/cmd_interface/counter_manager_registers.c:37`: `counter << 16` of a `uint16_t` of 32768 or more is a signed overflow (`C87_shift_refuted`).
* `core/flash/flash_virtual_ram.c:89-93,164-169`: the size of a memory device need not be a multiple of 256; if it is not, erasing its last block writes past the end of its memory (`C88_size_refuted`).
* `core/firmware/authorized_execution_prepare_firmware_update.c:145-169`: after the timeout the request fails, but staging goes on and can complete with no digest set (`C89_timeout`); without a timeout the wait need not end (`C89_stuck_refuted`).
