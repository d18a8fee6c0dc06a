{
 "claims": [
  {
   "property": "C01",
   "status": "proved",
   "theorems": [
    "C01_layout_invertible",
    "C01_layout_injective"
   ],
   "note": "PrimeS_Props.v; PRIME-S layout over unbounded integers"
  },
  {
   "property": "C02",
   "status": "proved",
   "theorems": [
    "C02_stripe_on_distinct_disks"
   ],
   "note": "PrimeS_Props.v"
  },
  {
   "property": "C03",
   "status": "proved",
   "theorems": [
    "C03_layout_is_dense",
    "C03_repetition_fills_its_rows"
   ],
   "note": "PrimeS_Props.v"
  },
  {
   "property": "C04",
   "status": "proved",
   "theorems": [
    "C04_iterator_agrees",
    "C04_numbering"
   ],
   "note": "PrimeS_Props.v"
  },
  {
   "property": "C05",
   "status": "partial",
   "theorems": [
    "C05_no_overflow_partial",
    "C05_debug_partial",
    "C05_no_overflow_refuted",
    "C05_debug_refuted",
    "C05_constructor_accepts_only_legal",
    "C05_primality_test"
   ],
   "note": "False in general: arrays of 191..211 disks are accepted but overflow i16 (refuted with witness); proved exact in release builds for n <= 181, in debug builds when also n(n-1)m <= 2^15"
  },
  {
   "property": "C06",
   "status": "proved",
   "theorems": [
    "C06_decode_rebuilds_lost_columns",
    "C06_lost_columns_are_determined",
    "C06_single_parity_is_xor",
    "C06_encodev_is_encode",
    "C06_encode_update_is_encode"
   ],
   "note": "GF(2^8) with the polynomial 0x11d, the XOR and Cauchy matrices (checked against the golden matrices in the tests), Gauss-Jordan inversion, encode, encodev, encode_update and decode, for all geometries with at most 256 columns in all"
  },
  {
   "property": "C07",
   "status": "partial",
   "theorems": [
    "C07_cursor_partial",
    "C07_cursor_refuted",
    "C07_columns"
   ],
   "note": "SG_Props.v; true for lists without empty segments; with an empty segment the cursor stops early (refuted)"
  },
  {
   "property": "C08",
   "status": "proved",
   "theorems": [
    "C08_stripe_buffer_read_back",
    "C08_flush_writes_everything"
   ],
   "note": "SB_Props.v"
  },
  {
   "property": "C09",
   "status": "proved",
   "theorems": [
    "C09_sync_is_a_barrier"
   ],
   "note": "For every history of submissions, completions, wake-ups and removals: the requests issued before a sync are exactly those submitted before it."
  },
  {
   "property": "C10",
   "status": "partial",
   "theorems": [
    "C10_exactly_once",
    "C10_answered_once",
    "C10_no_lost_wakeup",
    "C10_no_starvation",
    "C10_only_sync_retry_panics",
    "C10_sync_eagain_refuted"
   ],
   "note": "Each request leaves the scheduler once and is answered once; with an optimum queue depth of at least 2 (the code uses 10) and no removal, nothing that waits is forgotten and everything drains. Not proved in full because it is false: EAGAIN for a sync makes the retry poll a completed future, a panic (C10_sync_eagain_refuted). C10_only_sync_retry_panics says that is the only panic."
  },
  {
   "property": "C100",
   "status": "proved",
   "theorems": [
    "C100_exclusive",
    "C100_no_deadlock",
    "C100_queue",
    "C100_completable"
   ],
   "note": "TreeLock_Props.v. The locks of one tree, of any shape; what an operation does is left open except for which locks it has and may ask for. That the tree stays balanced is taken over from the tree's own invariants (C29); waiting for disks, cache and lower trees, which take none of these locks, and the offline audit (check) are left out."
  },
  {
   "property": "C101",
   "status": "partial",
   "theorems": [
    "C101_grammar",
    "C101_words",
    "C101_makes",
    "C101_written",
    "C101_only_named",
    "C101_unambiguous",
    "C101_every_layout",
    "C101_ends",
    "C101_space_refuted",
    "C101_hangs_refuted"
   ],
   "note": "PoolCreate_Props.v. Proved: the parser reads the grammar, exactly the described and possible layouts are made, every layout can be described, nothing is written when none is made, and only named devices are written to if no argument has white space in it. False (refuted): an argument with a space is taken for two devices, which are overwritten; a device that is given twice makes the command wait forever for itself. The count of RAID members is kept in 16 bits, so C101_makes is for fewer than 32768 of them; options (zone size, properties) are left out."
  },
  {
   "property": "C102",
   "status": "partial",
   "theorems": [
    "C102_import",
    "C102_incomplete",
    "C102_order",
    "C102_newest",
    "C102_others",
    "C102_offered",
    "C102_taken",
    "C102_by_name",
    "C102_own",
    "C102_stale_disk_refuted",
    "C102_newest_refuted",
    "C102_retry_refuted"
   ],
   "note": "Import_Props.v. Proved for any disks and timing if the labels of the pool's disks agree on what it is made of; the latest transaction is used in pools of one mirror. C102_own holds whatever labels say. False (refuted): if the labels disagree because a disk was replaced, the label of the disk tasted last counts, and committed transactions can be lost although a disk has them; with several mirrors the first to answer decides, so after a crash between two labels the older transaction may be used; a failed attempt to import uses up the disks. Reading the space map after opening is taken to succeed."
  },
  {
   "property": "C103",
   "status": "partial",
   "theorems": [
    "C103_ends",
    "C103_reads",
    "C103_disk",
    "C103_failure_loses",
    "C103_keeps_refuted",
    "C103_success_refuted"
   ],
   "note": "TreeFail_Props.v, on the trees of C27-C30. Proved: a flush ends, in success or reporting the failure; lookups are never wrong; what was on disk stays. The rest is false, not only in a witness but for every flush that fails (C103_failure_loses): the node being written is dropped, some stored key panics when it is looked up, and the tree can never be recorded again; if the root's write failed the next flush even reports success. Of the other operations only lookups are interleaved."
  },
  {
   "property": "C104",
   "status": "partial",
   "theorems": [
    "C104_told",
    "C104_served",
    "C104_drains",
    "C104_task_ends",
    "C104_failure",
    "C104_failure_refuted"
   ],
   "note": "CleanTask_Props.v. Proved as long as no pass fails. The last sentence is false, for every failing pass (C104_failure): the background task panics, all waiting requests are dropped, every later request panics in the client, and so does the shutdown. That the channel is never full with a fresh clone of the sender per message is taken from the documentation of futures."
  },
  {
   "property": "C105",
   "status": "partial",
   "theorems": [
    "C105_in_use",
    "C105_unmount",
    "C105_mount",
    "C105_destroy",
    "C105_inherited_ignored",
    "C105_mountpoint_panics",
    "C105_failed_set",
    "C105_in_use_refuted",
    "C105_unmount_refuted",
    "C105_destroy_refuted",
    "C105_not_mounted_refuted"
   ],
   "note": "MountProp_Props.v. Proved for histories in which nothing is set above a mounted data set, properties of mounted ones are written without errors, and nothing is mounted or unmounted at another's mountpoint. Each restriction is needed: for every mounted data set, a property set above it and inherited is reported but not used, setting its mountpoint panics the daemon's task, and a change that fails is used nevertheless; refuted also: after a change of the parent's mountpoint a data set cannot be unmounted; unmounting the lower of two data sets at one mountpoint takes out the other, and the mounted one can then be destroyed or mounted twice. Requests one at a time; names are those of C25 and C45."
  },
  {
   "property": "C106",
   "status": "partial",
   "theorems": [
    "C106_request_read",
    "C106_answer_read",
    "C106_unambiguous",
    "C106_sizes",
    "C106_call",
    "C106_as_assumed",
    "C106_small",
    "C106_change_answered",
    "C106_any_bytes",
    "C106_list_arrives",
    "C106_status_size",
    "C106_status_arrives",
    "C106_list_refuted",
    "C106_whole_list_refuted",
    "C106_status_refuted",
    "C106_long_request_refuted"
   ],
   "note": "Wire_Props.v. Proved for all messages, with their exact sizes; the connection assumed of the client library in C87 and C88 is thereby justified. The third sentence is false, not only in a witness: any data set with 64 children whose full names have 18 bytes or more cannot be listed by the command with its defaults (48 bytes without properties), nor the status of any pool of 73 unmirrored disks or 128 disks be shown; such disks cannot be faulted by their path. The speedy crate is not in /repo: its encodings are as documented; a message longer than the socket's own limit is taken to be cut off like others that are too long."
  },
  {
   "property": "C107",
   "status": "partial",
   "theorems": [
    "C107_passes",
    "C107_after_range_deletions",
    "C107_sound",
    "C107_ridt",
    "C107_ridt_inverse",
    "C107_whole",
    "C107_empty_node_refuted",
    "C107_lost_key_refuted",
    "C107_twice_refuted",
    "C107_uneven_refuted",
    "C107_height_refuted",
    "C107_false_alarm_refuted",
    "C107_shared_address_refuted"
   ],
   "note": "Check_Props.v. Proved: no false alarm after any history without range deletions, and with them exactly for nodes that are too small; whatever tree passes has legal sizes, ordered keys, recorded keys below those they stand for, and nested transaction ranges; exactly what the check of the tables establishes, and that they are inverses if no two records share an address. Refuted: a range deletion makes the check complain of a healthy tree; an empty node makes it panic, in every tree; a stored key that lookups miss, a key stored twice, leaves at different depths, a wrong height, two records at one address and reference counts of zero all pass. I/O errors are not modelled."
  },
  {
   "property": "C108",
   "status": "partial",
   "theorems": [
    "C108_get",
    "C108_given_only",
    "C108_get_ends",
    "C108_source_words",
    "C108_readable",
    "C108_list",
    "C108_twice_refuted",
    "C108_readable_refuted",
    "C108_property_column_refuted",
    "C108_list_default_refuted",
    "C108_list_nothing_refuted"
   ],
   "note": "Cli_Props.v. Proved of the scriptable output for every answer of the daemon whose properties are those of one state, and every result an unstable sort may have. Refuted: for any properties that do not include the name, fs list with its default order fails for every pool; without data sets it prints nothing; a data set below two of those given is printed twice; mountpoints with tabulators or line ends cannot be read back (C108_readable is proved without them); the base mountpoint is shown as mountpoint in the property column. The table for people (tabular crate) and the parsing of options (clap) are not modelled."
  },
  {
   "property": "C109",
   "status": "partial",
   "theorems": [
    "C109_disks",
    "C109_readable",
    "C109_health",
    "C109_states",
    "C109_missing_told",
    "C109_missing_refuted",
    "C109_hidden_refuted"
   ],
   "note": "Status_Props.v. Proved for all statuses whose disks have absolute paths (or none, if missing) and whose mirrors and RAIDs are not empty: every disk is shown with its state, and equal output means equal pools in all that is to be shown. Refuted: for every pool, which disk of a mirror is missing cannot be told from the output unless identifiers are asked for; identifiers of mirrors of one disk and RAIDs of one mirror are not shown even then. The alignment of the table (prettytable crate) is not modelled."
  },
  {
   "property": "C11",
   "status": "partial",
   "theorems": [
    "C11_lba_order_partial",
    "C11_elevator_refuted"
   ],
   "note": "The claim as documented is false: the elevator issues a higher LBA first if it stands between the two (C11_elevator_refuted). Proved: if in an LBA range all requests of the history come in increasing order (the writes to one zone), they are issued in that order whatever happens elsewhere."
  },
  {
   "property": "C110",
   "status": "partial",
   "theorems": [
    "C110_set_partial",
    "C110_set_fails",
    "C110_refused",
    "C110_create_partial",
    "C110_fault",
    "C110_comma_refuted",
    "C110_mount_options_refuted",
    "C110_all_or_nothing_refuted"
   ],
   "note": "Args_Props.v. Proved for every daemon: success exactly if all was done, in order; a failure leaves exactly those before the failing one changed; a property that cannot be read stops the command before anything is requested. Refuted: every mountpoint with a comma is cut at it and the rest taken for properties (/a,atime also turns atime on), so the first sentence is proved without commas and without the record size of C43; whenever a second data set fails, the first stays changed; options of fs mount are ignored, whatever they are. The splitting of arguments by the clap crate is as documented."
  },
  {
   "property": "C111",
   "status": "partial",
   "theorems": [
    "C111_one",
    "C111_restart",
    "C111_orderly_partial",
    "C111_left_refuted",
    "C111_two_refuted",
    "C111_unreachable_refuted"
   ],
   "note": "Lock_Props.v. Proved of the program as it is, in which daemons end only by being killed, exiting or panicking: the first two sentences, for all interleavings. The third is false: the main loop never returns, so the code that removes the files is never reached and the lock file stays; if it were reached while another daemon waits for the lock, two daemons would serve at once (the lock is on a file that has lost its name), and one of them would then remove the other's socket. Without a waiting daemon it would be harmless (C111_orderly_partial). Socket paths that end in .lock, and failures of the file system, are not modelled."
  },
  {
   "property": "C12",
   "status": "proved",
   "theorems": [
    "C12_coalescing",
    "C10_answered_once"
   ],
   "note": "Every operation issued is the merge of a run of requests of one kind, moves the same blocks to the same LBAs, and stays within the system's limit of buffers."
  },
  {
   "property": "C13",
   "status": "proved",
   "theorems": [
    "C13_never_panics",
    "C13_live_extents_disjoint",
    "C13_erase_only_free",
    "C13_no_overlap_without_erase"
   ],
   "note": "FSM_Props.v; every legal history of write/free/advance/sync/remount, any zone geometry"
  },
  {
   "property": "C14",
   "status": "proved",
   "theorems": [
    "C14_used_is_exact",
    "C14_allocated_is_exact"
   ],
   "note": "FSM_Props.v"
  },
  {
   "property": "C15",
   "status": "proved",
   "theorems": [
    "C15_remount_preserves_space_map",
    "C15_interleaved_flush_refuted"
   ],
   "note": "FSM_Props.v; the second theorem shows that the two flushes of a sync must not be separated by a write"
  },
  {
   "property": "C16",
   "status": "partial",
   "theorems": [
    "C16_reclaimed_partial",
    "C16_leaked_zones_refuted"
   ],
   "note": "FSM_Props.v; true when the last free comes after the zone was closed; refuted when all frees came while it was open: the zone is leaked forever"
  },
  {
   "property": "C17",
   "status": "partial",
   "theorems": [
    "C17_crash_consistent_partial",
    "C17_window_refuted",
    "C17_double_free_refuted",
    "C17_unmountable_refuted",
    "C17_crash_consistent_refuted"
   ],
   "note": "Crash_Props.v: on the free-space map of C13-C16. The whole claim for every history with any number of crashes, except crashes between the first write to space map 0 and the end of the write of label 0. In that window it is false (refuted): mounting always reads space map 0, also when it takes an older label; zones the label refers to are erased by the next sync, freeing panics, and two crashes leave no label."
  },
  {
   "property": "C18",
   "status": "partial",
   "theorems": [
    "C18_repair_complete_partial",
    "C18_repair_complete_refuted",
    "C18_delete_during_repair_refuted",
    "C18_raid_open_zone_refuted"
   ],
   "note": "Proved for pools without RAID, when every write made during the repair is in a transaction later than the end of every zone listed so far plus one: the repair's second phase terminates and the disk then holds every block of every extent in use. Refuted without that restriction: a zone closed in the transaction following that of the last listed zone is never copied. Also refuted: emptying the last zone of a cluster while it is on the repair's list makes the repair panic; and for a RAID of mirrors an open zone's data may not be copied at all. I/O errors are not modelled; each step is atomic."
  },
  {
   "property": "C19",
   "status": "proved",
   "theorems": [
    "C19_lru",
    "C19_insert_too_big_panics"
   ],
   "note": "Lru_Props.v; pointer-level model refines an LRU list"
  },
  {
   "property": "C20",
   "status": "partial",
   "theorems": [
    "C20_misses_answered_partial",
    "C20_failed_read_hangs_refuted",
    "C20_eviction_panics_refuted"
   ],
   "note": "GetOrInsert_Props.v; true when reads succeed and there is no eviction; refuted otherwise"
  },
  {
   "property": "C21",
   "status": "proved",
   "theorems": [
    "C21_credit_conserved",
    "C21_splits_conserve",
    "C21_dropped_future_leaks_refuted"
   ],
   "note": "WriteBack_Props.v; any interleaving of atomic instructions; credit of a woken, dropped future counts as granted forever"
  },
  {
   "property": "C22",
   "status": "partial",
   "theorems": [
    "C22_no_lost_wakeup_partial",
    "C22_lost_wakeup_refuted"
   ],
   "note": "WriteBack_Props.v; true for non-overlapping calls, refuted for interleaved ones"
  },
  {
   "property": "C23",
   "status": "partial",
   "theorems": [
    "C23_record_identity_partial",
    "C23_answers_right",
    "C23_reads_never_panic",
    "C23_tables_inverse_partial",
    "C23_cleaned_zone_empty",
    "C23_failed_clean_refuted"
   ],
   "note": "IDML_Props.v, on top of C66. For every history in which no cleaning runs out of space: no panic, every read right, ids never reused, tables inverse, the code's own consistency check passes. After a cleaning that failed for lack of space the answers stay right, but a put may panic (refuted). Operations are atomic here; see C24 for interleavings."
  },
  {
   "property": "C24",
   "status": "partial",
   "theorems": [
    "C24_interleavings_safe_partial",
    "C24_at_rest_partial",
    "C24_delete_then_move_refuted",
    "C24_double_free_refuted"
   ],
   "note": "IDMLConc_Props.v. Safe in every interleaving in which the records deleted are not those being relocated. For one and the same record the claim is false: the relocation panics if the deletion comes first, and if the deletion has read the entry first the old block is freed twice, the zone counts as empty, and another record in it is lost (both refuted)."
  },
  {
   "property": "C25",
   "status": "partial",
   "theorems": [
    "C25_names_and_ids_partial",
    "C25_listing_complete",
    "C25_second_root_refuted",
    "C25_no_root_refuted",
    "C25_empty_name_refuted",
    "C25_leading_slash_refuted",
    "C25_collision_refuted",
    "C25_unmounted_busy_refuted"
   ],
   "note": "Forest_Props.v: the whole claim for every history of creations, destructions, lookups, mounts and unmounts over names that are nonempty, have no slash and do not collide, in which the root is created once and before its children; each restriction is shown necessary by a refutation.  Operations are atomic; the forest's B-tree is an ordered map (C27)."
  },
  {
   "property": "C26",
   "status": "partial",
   "theorems": [
    "C26_running_sync_is_durable",
    "C26_sync_is_durable_partial",
    "C26_late_write_refuted",
    "C26_overlapping_syncs_refuted",
    "C26_after_failure_refuted",
    "C26_sync_promise_refuted"
   ],
   "note": "Sync_Props.v. A sync that does run and succeeds is durable, for every interleaving; one that returns success because there seems nothing to do is durable if syncs do not overlap, none failed, and no write begun before a sync got its transaction after it. Each restriction is needed (refuted). The data set is opened by one task at a time and not destroyed (C70)."
  },
  {
   "property": "C27",
   "status": "proved",
   "theorems": [
    "C27_insert_remove_as_map",
    "C27_get_as_map",
    "C27_last_key_as_map",
    "C27_range_as_map"
   ],
   "note": "Sequential model of insert, remove, get, last_key, range over any history that also flushes and reopens; locking, credit and I/O errors are not modelled."
  },
  {
   "property": "C28",
   "status": "proved",
   "theorems": [
    "C28_leaves_at_same_depth",
    "C28_fanout",
    "C28_separators",
    "C28_created_limits_are_legal"
   ],
   "note": "For every history of inserts, removes, flushes and reopens; the limits the software creates are shown legal."
  },
  {
   "property": "C29",
   "status": "partial",
   "theorems": [
    "C29_range_delete_as_map_partial",
    "C29_any_history_as_map_partial",
    "C29_remove_after_range_delete",
    "C29_last_key_as_map",
    "C29_range_as_map",
    "C29_balanced",
    "C29_no_leak_no_double_free",
    "C29_empty_open_range_panics_refuted",
    "C29_range_delete_min_fanout_refuted"
   ],
   "note": "TreeRD_Props.v; range_delete removes exactly the range in every history, results stay those of a map, tree stays balanced, no address leaks. Open: whether a remove several operations after a range deletion can panic. Refuted: empty range with excluded ends panics, minimum fanout not kept."
  },
  {
   "property": "C30",
   "status": "proved",
   "theorems": [
    "C30_flush_cleans",
    "C30_flush_of_clean_tree_does_nothing",
    "C30_reopened_tree_is_same_map"
   ],
   "note": ""
  },
  {
   "property": "C31",
   "status": "proved",
   "theorems": [
    "C31_addresses_complete"
   ],
   "note": "For histories of inserts, removes, flushes and reopens; cleaning of zones is not included."
  },
  {
   "property": "C32",
   "status": "partial",
   "theorems": [
    "C32_keys_ordered_partial",
    "C32_components_partial",
    "C32_ranges_partial",
    "C32_keys_collide_refuted",
    "C32_extent_range_refuted",
    "C32_obj_range_refuted"
   ],
   "note": "FSKey_Props.v; true for offsets below 2^56 and object numbers below 2^64-1; refuted beyond"
  },
  {
   "property": "C33",
   "status": "proved",
   "theorems": [
    "C33_hash_table_is_a_map"
   ],
   "note": "HTable_Props.v; sequential operations, any hash function"
  },
  {
   "property": "C34",
   "status": "partial",
   "theorems": [
    "C34_file_contents",
    "C34_empty_write_refuted"
   ],
   "note": "File_Props.v; proved for every history against an ideal file whose size becomes max(size, offset+len); the one deviation from POSIX, a zero-length write past the end that extends the file, is the refutation. Sequential; offsets below 2^56; no I/O errors."
  },
  {
   "property": "C35",
   "status": "partial",
   "theorems": [
    "C35_bytes_exact",
    "C35_extents_in_file",
    "C35_bytes_concurrent_refuted"
   ],
   "note": "Exact in every sequential history; false when two writes run concurrently (refuted)."
  },
  {
   "property": "C36",
   "status": "partial",
   "theorems": [
    "C36_seek_data",
    "C36_seek_hole_partial",
    "C36_seek_hole_refuted",
    "C36_holes_read_zero"
   ],
   "note": "SEEK_DATA and zero reads in full; SEEK_HOLE returns a hole but not always the first one (refuted)."
  },
  {
   "property": "C37",
   "status": "partial",
   "theorems": [
    "C37_file_system_partial",
    "C37_small_buckets_partial",
    "C37_pieces_partial",
    "C37_never_ends_refuted",
    "C37_fuse_panic_refuted",
    "C37_highest_hash_refuted"
   ],
   "note": "Exact for every interruption pattern if no three names share a hash and none has the highest hash, and for larger buckets if none is interrupted twice. Otherwise false: interrupted twice in a bucket the listing never ends or FuseFs::readdir panics; the highest hash restarts the listing."
  },
  {
   "property": "C38",
   "status": "partial",
   "theorems": [
    "C38_link_counts_partial",
    "C38_root_refuted",
    "C38_link_collision_refuted"
   ],
   "note": "For every legal history: no panic, files have as many links as names, directories two more than subdirectories. False for the root (one less) and after a link whose name collides with another name of the directory; both refuted. Assumes no such link collision and no collision of inode numbers of open nameless files."
  },
  {
   "property": "C39",
   "status": "partial",
   "theorems": [
    "C39_open_unlinked_partial",
    "C39_mount_reaps",
    "C39_rename_over_open_refuted",
    "C39_dying_collision_refuted"
   ],
   "note": "Open files exist and nameless files are open, for every legal history of operations and lookups without rename over the last name of an open file, which deletes it at once (refuted); a dying-inode hash collision panics (refuted)."
  },
  {
   "property": "C40",
   "status": "partial",
   "theorems": [
    "C40_link_partial",
    "C40_link_refuted"
   ],
   "note": "Link inserts below the hash table, so a name with the same hash in the directory is lost (refuted); without such a collision exactly the new name is added."
  },
  {
   "property": "C41",
   "status": "partial",
   "theorems": [
    "C41_not_reused_within_mount",
    "C41_reuse_after_remount_refuted"
   ],
   "note": "Numbers are not reused while mounted; after a remount the number of a deleted last object is given out again (refuted)."
  },
  {
   "property": "C42",
   "status": "partial",
   "theorems": [
    "C42_disjoint_writes_partial",
    "C42_lost_size_refuted",
    "C42_lost_record_refuted"
   ],
   "note": "FileConc_Props.v; every interleaving of writes that share no record and do not extend the file is preserved; for appends and for writes within one record the claim is false of the code (refuted)."
  },
  {
   "property": "C43",
   "status": "partial",
   "theorems": [
    "C43_print_parse_partial",
    "C43_record_sizes_partial",
    "C43_record_size_refuted",
    "C43_names_and_sources",
    "C43_sources_refuted"
   ],
   "note": "Prop_Props.v; true for every property value except the 1 MiB record size, which the parser spells 1048776, and for sources up to one level up"
  },
  {
   "property": "C44",
   "status": "partial",
   "theorems": [
    "C44_inheritance_partial",
    "C44_mountpoint_partial",
    "C44_deep_inheritance_refuted"
   ],
   "note": "Prop_Props.v; true for ancestries of at most 255 levels; beyond that the u8 level counter overflows"
  },
  {
   "property": "C45",
   "status": "partial",
   "theorems": [
    "C45_pool_names_partial",
    "C45_foreign_pool_refuted",
    "C45_every_suffix_refuted"
   ],
   "note": "Prop_Props.v; names of the pool and its datasets resolve correctly; any name that merely starts with the pool's name is accepted too"
  },
  {
   "property": "C46",
   "status": "partial",
   "theorems": [
    "C46_read_back_partial",
    "C46_corruption_detected",
    "C46_other_copy",
    "C46_large_part_refuted"
   ],
   "note": "Label_Props.v. Labels are read back from either place, corruption is detected up to the checksum, the other copy is used. A part of the label of more than 4 kB (such as a long pool name) panics although the label would fit (refuted)."
  },
  {
   "property": "C47",
   "status": "partial",
   "theorems": [
    "C47_file_zones_partial",
    "C47_raid_exact",
    "C47_raid_zones",
    "C47_raid_on_files_partial",
    "C47_raid_capacity",
    "C47_erase_isolated_partial",
    "C47_labels_in_zone_refuted",
    "C47_past_the_end_refuted"
   ],
   "note": "RAID: an address is in a zone exactly if all chunks of its stripe lie in that zone of their disks; zones are disjoint and lba2zone agrees, for every consistent zone map of the disks, and at most a partial group of k rows is lost at either end (between RAID zones there are unused stripes by design). File-backed disks: exact partition if the label area fits into the first zone; nothing enforces that (refuted), and the last zone may end past the end of the disk (refuted)."
  },
  {
   "property": "C48",
   "status": "partial",
   "theorems": [
    "C48_dirloop_partial",
    "C48_into_itself_refuted"
   ],
   "note": "Refused exactly if the source is above the new parent, and then every directory stays connected to the root; moving a directory into itself is accepted (refuted). Assumes the ancestors of the new parent are cached, as FUSE requires."
  },
  {
   "property": "C49",
   "status": "proved",
   "theorems": [
    "C49_read_back",
    "C49_only_if_it_saves",
    "C49_bad_tag_rejected"
   ],
   "note": "DDML_Props.v; the compression libraries and the shuffle are functions assumed to invert each other; everything around them (block rounding, tag, when compression is kept, padding) is modelled."
  },
  {
   "property": "C50",
   "status": "partial",
   "theorems": [
    "C50_returned_data_matches",
    "C50_mirror_heals_partial",
    "C50_partial_block_refuted",
    "C50_partial_block_never_heals"
   ],
   "note": "No data is returned whose checksum does not match, whatever the disks deliver. A mirror with one good copy heals the read if the record fills its blocks; for a record that does not, the reconstruction is checksummed with its padding and is always rejected (refuted)."
  },
  {
   "property": "C51",
   "status": "proved",
   "theorems": [
    "C51_mirror_reads",
    "C51_round_robin"
   ],
   "note": "every failure pattern, every number of disks, every value of the read counter; the read of a single disk is an arbitrary outcome"
  },
  {
   "property": "C52",
   "status": "partial",
   "theorems": [
    "C52_mirror",
    "C52_large_mirror_refuted",
    "C52_raid_partial",
    "C52_restore_refuted",
    "C52_pool"
   ],
   "note": "right for mirrors and RAID up to 255 disks per mirror through any sequence of faults, attachments and repairs; refuted for 256 lost disks of one mirror (u8 cast) and after a mirror faulted during its repair is returned to service (stale counter)"
  },
  {
   "property": "C53",
   "status": "proved",
   "theorems": [
    "C53_parallel_read_count"
   ],
   "note": "PrimeS_Props.v"
  },
  {
   "property": "C54",
   "status": "proved",
   "theorems": [
    "C54_rows_follow_chunk_order"
   ],
   "note": "PrimeS_Props.v"
  },
  {
   "property": "C55",
   "status": "partial",
   "theorems": [
    "C55_pad_preserves_data",
    "C55_pad_total",
    "C55_pad_total_refuted",
    "C55_zero_sglist"
   ],
   "note": "SG_Props.v; data preservation and zero lists proved; panics on an aligned buffer after an unaligned one (refuted)"
  },
  {
   "property": "C56",
   "status": "proved",
   "theorems": [
    "C56_zone_protocol"
   ],
   "note": "FSM_Props.v"
  },
  {
   "property": "C57",
   "status": "proved",
   "theorems": [
    "C57_no_leak_no_double_free"
   ],
   "note": ""
  },
  {
   "property": "C58",
   "status": "proved",
   "theorems": [
    "C58_no_blob_leaked"
   ],
   "note": "Sequential histories, storage does not fail."
  },
  {
   "property": "C59",
   "status": "partial",
   "theorems": [
    "C59_nothing_issued_during_removal",
    "C59_removed_too_early_refuted",
    "C59_remove_hangs_refuted"
   ],
   "note": "Nothing is issued during a removal. The rest is false: cancelled merged requests are subtracted from the queue depth once each, so the remover is told too early, or never."
  },
  {
   "property": "C60",
   "status": "partial",
   "theorems": [
    "C60_names_exact_partial"
   ],
   "note": "All but links that collide with another name (see C40_link_refuted) and collisions of dying inodes."
  },
  {
   "property": "C61",
   "status": "partial",
   "theorems": [
    "C61_stable_entries_partial",
    "C61_skipped_refuted"
   ],
   "note": "Proved for pieces that end at the end of a bucket; false if a piece ends within a bucket that shrinks to one entry before the next."
  },
  {
   "property": "C62",
   "status": "proved",
   "theorems": [
    "C62_zones_filled_without_gaps"
   ],
   "note": "For every consistent geometry; the zero fill is computed by the model of open_zone_priv."
  },
  {
   "property": "C63",
   "status": "partial",
   "theorems": [
    "C63_degraded_raid_works_refuted",
    "C63_degraded_raid_imported_refuted",
    "C63_degraded_mirrors_work_partial"
   ],
   "note": "refuted: writing labels panics as soon as one child of the RAID device is absent or faulted, and reading the space map when the first is; holds when only disks within mirrors are lost"
  },
  {
   "property": "C64",
   "status": "partial",
   "theorems": [
    "C64_mirror_import",
    "C64_raid_import_refuted"
   ],
   "note": "proved for mirrors; refuted for RAID, whose mirrors' transactions are never compared"
  },
  {
   "property": "C65",
   "status": "partial",
   "theorems": [
    "C65_label_sound_partial",
    "C65_label_sound_refuted"
   ],
   "note": "Proved under the restriction of C18 and when no zone is erased while on the repair's list (then no step panics either); refuted otherwise."
  },
  {
   "property": "C66",
   "status": "proved",
   "theorems": [
    "C66_records_read_back",
    "C66_used_is_exact"
   ],
   "note": "DDML_Props.v, on top of the allocator model of C13; devices that do not fail."
  },
  {
   "property": "C67",
   "status": "partial",
   "theorems": [
    "C24_interleavings_safe_partial",
    "C67_clean_across_transactions_refuted"
   ],
   "note": "Within one transaction (C24); false across the end of a transaction, and the cleaner does not keep the transaction open (refuted)."
  },
  {
   "property": "C68",
   "status": "partial",
   "theorems": [
    "C68_crash_safe_partial",
    "C68_two_crashes_refuted",
    "C68_rollback_refuted"
   ],
   "note": "Label_Props.v. Holds unless a sync crashes in the first label right after one that crashed in the second: then no label is left, or an older one is found (both refuted)."
  },
  {
   "property": "C69",
   "status": "partial",
   "theorems": [
    "C69_failure_no_effect_partial",
    "C69_space_exact",
    "C69_failed_create_leaks_refuted"
   ],
   "note": "names, ids and mounts are unchanged by any failing operation; the space is refuted: a creation refused with EEXIST leaves its tree's root record allocated for ever (and C69_space_exact shows this is the only leak)."
  },
  {
   "property": "C70",
   "status": "partial",
   "theorems": [
    "C70_reads_see_writes_partial",
    "C70_syncs_succeed_partial",
    "C70_two_opens_refuted",
    "C70_destroy_race_refuted",
    "C70_reborn_refuted",
    "C70_two_destroys_refuted"
   ],
   "note": "Sync_Props.v. Holds in every interleaving where no two tasks are inside the first opening of the same data set and none opens or destroys one that is being destroyed; false otherwise (refuted): a write is lost, the background sync panics and no sync works any more, a new data set shows the destroyed one's contents, a second destruction panics."
  },
  {
   "property": "C71",
   "status": "proved",
   "theorems": [
    "C71_reads_survive_absent_children",
    "C71_contents_are_storable"
   ],
   "note": "Raid_Props.v: the reads of vdev_raid.rs on the layout of C01-C05 and the code of C06, whole claim. The second theorem shows that the hypothesis can be met for any contents."
  },
  {
   "property": "C72",
   "status": "partial",
   "theorems": [
    "C72_wrong_data_is_never_returned",
    "C72_recovers_within_a_stripe",
    "C72_recovers_across_stripes",
    "C72_unaligned_error_panics",
    "C72_healthy_error_across_stripes_fails",
    "C72_one_error_is_survived_refuted",
    "C72_one_error_is_recovered_refuted"
   ],
   "note": "Raid_Props.v. No wrong data: whole claim. Recovery: within a stripe if the array already knows of an absent disk or the range is whole chunks; across stripes only up to the number of disks known to be absent. Otherwise false (refuted): one failing disk makes an unaligned read panic and a longer read fail, and this is so for every such read."
  },
  {
   "property": "C73",
   "status": "partial",
   "theorems": [
    "C73_write_stores_stripes",
    "C73_degraded_write_then_read",
    "C73_success_is_recoverable",
    "C73_successful_write_reads_back_refuted"
   ],
   "note": "RaidW_Props.v. All but the last sentence of the claim is proved. That sentence is false (refuted): a disk that fails a write is not marked absent, so a later read that reports success returns its old contents; it holds once the disks that failed are treated as absent (C73_success_is_recoverable). Layers above detect such reads by their checksums."
  },
  {
   "property": "C74",
   "status": "proved",
   "theorems": [
    "C74_flushed_data_survives_absent_disks"
   ],
   "note": "RaidW_Props.v: the stripe buffers of C08 on the writes of C73 and the reads of C71."
  },
  {
   "property": "C75",
   "status": "partial",
   "theorems": [
    "C75_long_read_never_panics",
    "C75_offered_within_a_stripe",
    "C75_offered_across_stripes_partial",
    "C75_one_lying_disk_refuted",
    "C75_one_failing_disk_refuted",
    "C75_two_lying_disks_refuted"
   ],
   "note": "RaidL_Props.v. No panic: whole claim. The data is offered: within a stripe, whole claim; across stripes if the bad disks hold none of the range's parity or the array has single parity, and no read fails or all disks have a part of the range. Otherwise false (refuted): with double parity one disk that lies is enough, and a failing disk is confused with another if not all disks have a part of the range."
  },
  {
   "property": "C76",
   "status": "partial",
   "theorems": [
    "C76_present_disks_complete_partial",
    "C76_replaced_disk_refuted"
   ],
   "note": "Replace_Props.v. Proved for all interleavings if a disk is only added once the earlier repair tasks have returned, and writes are late in the sense of C18. The full claim is false (refuted): if the disk being rebuilt is faulted and another is added, the old task copies the remaining zones to the new disk and declares it fit to be read. Steps are atomic and without I/O errors."
  },
  {
   "property": "C77",
   "status": "partial",
   "theorems": [
    "C77_frontend_partial",
    "C77_overlapping_lookups_refuted",
    "C77_same_name_refuted",
    "C77_link_counted_refuted",
    "C77_forgotten_ancestor_refuted"
   ],
   "note": "Fuse_Props.v, on the file system model of C38-C41, C48 and C60. Proved for all histories of requests handled one at a time, if the kernel holds all directories above the destination of a rename and does not count the reply to link as a lookup, and without the hash collisions and renames over open files of C39 and C40. False otherwise (refuted): overlapping lookups of one name, or of two names of a forgotten file, panic; so do a rename below a forgotten directory and a forget that counts links."
  },
  {
   "property": "C78",
   "status": "partial",
   "theorems": [
    "C78_dotdot_partial",
    "C78_stale_dotdot_refuted",
    "C78_dot_after_forget_refuted",
    "C77_frontend_partial"
   ],
   "note": "Fuse_Props.v. Proved: \".\" of a directory the kernel holds (part of C77), and the first lookup of \"..\" in a directory. False in general (refuted): after a directory is moved, a second lookup of \"..\" gives the old parent; \".\" after a forget panics."
  },
  {
   "property": "C79",
   "status": "partial",
   "theorems": [
    "C79_never_panics",
    "C79_extents_disjoint",
    "C79_used",
    "C79_used_is_held_partial",
    "C79_failed_write_refuted"
   ],
   "note": "Pool_Props.v, on top of the cluster model of C13-C16. Proved: no overlap and no panic (whole claim); the space reported is what clients hold if no write had failed before the pool was last imported, and exactly how much it differs otherwise. The full claim is false (refuted): the blocks of a failed write are counted as used after the next import."
  },
  {
   "property": "C80",
   "status": "partial",
   "theorems": [
    "C80_refused_partial",
    "C80_busy_refuted",
    "C80_shares_refuted",
    "C80_sizes_refuted",
    "C80_before_erasure_refuted"
   ],
   "note": "Pool_Props.v. Proved for idle pools whose clusters have the same share of usable space, if the write is one block long or the clusters are equally large. Each condition is needed (refuted without it): a full cluster is preferred to a busy one with room; to one with a larger usable share; and a small cluster whose rest is too short is preferred to a large one. The binary64 arithmetic is that of Flocq."
  },
  {
   "property": "C81",
   "status": "proved",
   "theorems": [
    "C81_closed_zones"
   ],
   "note": "Cleaner_Props.v. The range of transactions reported with a zone is C83."
  },
  {
   "property": "C82",
   "status": "partial",
   "theorems": [
    "C82_zones_to_clean_partial",
    "C82_huge_zones_refuted"
   ],
   "note": "Cleaner_Props.v. Proved for pools whose zones have less than 2^23 blocks (32 GB), the order for zones of equal size or of sizes whose product is below 2^24. False for huge zones (refuted): sizes are rounded to single precision. sort_unstable_by is any sorted permutation. Binary32 arithmetic is that of Flocq."
  },
  {
   "property": "C83",
   "status": "proved",
   "theorems": [
    "C83_zone_transactions",
    "C83_out_of_order_refuted"
   ],
   "note": "ZoneTxg_Props.v. Writes out of transaction order break it (refuted), and the cleaner can make them: cleaner.rs 49-52 lets go of the transaction before the moves it started have run, so they may happen in the next one under the old number."
  },
  {
   "property": "C84",
   "status": "proved",
   "theorems": [
    "C84_zone_is_emptied",
    "C84_history_as_map",
    "C84_no_leak_no_double_free",
    "C84_transactions_left_out_refuted",
    "C84_root_transaction_refuted"
   ],
   "note": "TreeCZ_Props.v. The transactions given must include those of the nodes in the zone: otherwise nodes can be left in it (refuted). Moving the root leaves its range of transactions as it was, so that a search for addresses by transaction misses it (refuted); the code only searches without bounds."
  },
  {
   "property": "C85",
   "status": "partial",
   "theorems": [
    "C85_emptied_while_in_use",
    "C85_cleaner_goes_on_partial",
    "C85_height_falls_refuted"
   ],
   "note": "TreeCZ_Props.v. Each search and each move is atomic, all within one transaction. Missing: that the cleaner never panics if the height of the tree falls meanwhile, which is false (refuted) though a comment in the code says it is harmless; transactions that end meanwhile."
  },
  {
   "property": "C86",
   "status": "partial",
   "theorems": [
    "C86_labels_partial",
    "C86_label_panics_refuted",
    "C86_label_not_durable_refuted"
   ],
   "note": "TreeSync_Props.v. Proved for executions in which the cleaner works only between syncs, as it would if it held the transaction. It does not (cleaner.rs 49-52 drops the guard before the work starts): a node moved after the flush makes write_label panic (refuted), and a moved root gets into a label before it is durable (refuted). One of the two tables, one of the two labels; each step is atomic."
  },
  {
   "property": "C87",
   "status": "partial",
   "theorems": [
    "C87_no_effect",
    "C87_denied",
    "C87_owner_is_answered",
    "C87_queries_are_answered",
    "C87_set",
    "C87_create",
    "C87_denied_is_told_partial",
    "C87_by_path",
    "C87_denied_is_told_refuted",
    "C87_failed_create_refuted"
   ],
   "note": "Rpc_Props.v. For any controller; messages must be shorter than the 4096 byte buffer. Missing because false: a user who may not drop caches, create, destroy or fault is not told EPERM, the client panics on an answer of the wrong kind (refuted for every state); a creation that fails because of a property leaves the data set behind (refuted). Properties given at creation are set in order, not concurrently."
  },
  {
   "property": "C88",
   "status": "partial",
   "theorems": [
    "C88_listing_partial",
    "C88_while_in_use",
    "C88_large_listing_refuted",
    "C88_destroyed_meanwhile_refuted",
    "C88_no_such_data_set_refuted"
   ],
   "note": "RpcList_Props.v. C88_listing_partial needs messages that fit: a page of data sets with long names does not (refuted). A data set destroyed before its children were listed makes the listing fail (refuted), and with no properties asked for a name that does not exist is listed (refuted). Names must have different hashes that are not zero, as in C25. The value of a property is a parameter (C44)."
  },
  {
   "property": "C89",
   "status": "proved",
   "theorems": [
    "C89_attributes",
    "C89_packing",
    "C89_no_record_leaked",
    "C89_all_freed"
   ],
   "note": "XAttr_Props.v. For every hash function with values of 56 bits. Inode numbers below 2^64 - 1, values shorter than 2^32 bytes. The record store is a map from record to bytes and does not fail; operations are atomic."
  },
  {
   "property": "C90",
   "status": "partial",
   "theorems": [
    "C90_daemon_partial",
    "C90_list_is_readable",
    "C90_other_names_refuted"
   ],
   "note": "XAttrFuse_Props.v. For names with the prefix user. or system. and listings below 2^32 bytes. Any other name makes the daemon panic (refuted). The flags of setxattr (create only, replace only) are ignored by the code."
  },
  {
   "property": "C91",
   "status": "partial",
   "theorems": [
    "C91_reads_during_sync_partial",
    "C91_only_the_sync_panics_partial",
    "C91_with_access_times",
    "C91_sync_panics_refuted"
   ],
   "note": "ReadSync_Props.v. Proved: reads are right and never panic, the contents do not change, and with access times kept nothing panics. False otherwise (refuted): InlineExtent::flush calls Arc::try_unwrap().unwrap(), which panics while a read that waits for one record holds a copy of a later one that was written since the last sync. Writes to the file during the read are left out: the kernel excludes them."
  },
  {
   "property": "C92",
   "status": "partial",
   "theorems": [
    "C92_attributes",
    "C92_blocks_refuted",
    "C92_symlink_size_refuted"
   ],
   "note": "Attr_Props.v. Proved for type, device, permissions, owner, group, flags, and for the size and times in the daemon's answer; link count and device as long as they fit in 32 bits. False (refuted): the number of blocks is the allocated bytes shifted left by nine, not right; the size of a symbolic link is 0."
  },
  {
   "property": "C93",
   "status": "partial",
   "theorems": [
    "C93_change_time_partial",
    "C93_modification_time",
    "C93_access_time",
    "C93_listing_and_extended_refuted"
   ],
   "note": "Attr_Props.v. The change time when link's updates happen in turn (C94) and the client sets no change time. False (refuted): listing a directory leaves its access time, extended attributes leave the change time. Operations are atomic but for link; the clock does not go back."
  },
  {
   "property": "C94",
   "status": "partial",
   "theorems": [
    "C94_link_partial",
    "C94_link_refuted"
   ],
   "note": "Attr_Props.v. Proved when the insertion of the new count comes before the other update reads the inode. False in the other orders (refuted): the count is lost, and removing one of the two names then destroys the file; or the change time is lost. Which orders the lock queues allow is not modelled."
  },
  {
   "property": "C95",
   "status": "partial",
   "theorems": [
    "C95_reads",
    "C95_writes",
    "C95_no_disk_refuted",
    "C95_reads_agree_refuted"
   ],
   "note": "MirrorIO_Props.v. Proved for the contents that reads return and for when reads and writes fail. False (refuted): a write succeeds if no disk is in service, so that the data are nowhere; after a failed write two reads in a row may differ. Requests are handled one at a time; disks that are rebuilt and restored are left to C18, C76 and C96."
  },
  {
   "property": "C96",
   "status": "partial",
   "theorems": [
    "C96_repair_zone_partial",
    "C96_read_error_refuted"
   ],
   "note": "MirrorIO_Props.v. Proved for what a repair leaves, with any read errors; failing writes are not modelled. False (refuted): one unreadable block on one disk stops the repair though another disk has it. No writes to the zone meanwhile."
  },
  {
   "property": "C97",
   "status": "partial",
   "theorems": [
    "C97_synced_in_time",
    "C97_not_more_often",
    "C97_shutdown_refuted"
   ],
   "note": "Syncer_Props.v. Proved for the times at which syncs begin, for any bounds on latencies, flushes and syncs. What a sync makes durable is C26. False (refuted): Database::shutdown does not sync. A failing sync, which ends the task by a panic, is left out (C26, C70)."
  },
  {
   "property": "C98",
   "status": "partial",
   "theorems": [
    "C98_statvfs",
    "C98_raid_fits",
    "C98_raid_capacity",
    "C98_disk_capacity",
    "C98_wraps_refuted"
   ],
   "note": "Statvfs_Props.v, on top of C79 and C47. Proved for pools whose zones fit into the reported size; that is so for every RAID device whose disks' zones fit, and for disks whose size is a multiple of the zone size. False otherwise (refuted): the last zone goes past the end of the disk, so more blocks may be used than there are, and the subtraction wraps. The free space includes the space of labels, which can never be used (C98_disk_capacity)."
  },
  {
   "property": "C99",
   "status": "partial",
   "theorems": [
    "C99_reads",
    "C99_kept",
    "C99_progress",
    "C99_finishes",
    "C99_no_panic_partial",
    "C99_change_panics_refuted",
    "C99_flush_panics_refuted",
    "C99_purge_panics_refuted"
   ],
   "note": "NodeLock_Props.v. One node and its parent's lock, any number of tasks. What reads see, that changes are kept and that someone can always go on is proved for all interleavings. No panic: only if no thread is interrupted between unlocking a node and dropping its handle, and no range deletion takes the node. False otherwise (refuted): a writer that gets the lock in between finds that it is not the only owner and panics; a range deletion takes leaves without locking them and panics if a reader is inside."
  }
 ]
}