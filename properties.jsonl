{"id": "C01", "title": "Declustered layout is injective and invertible", "statement": "In a declustered RAID array, two different chunks (data or parity) are never stored at the same place on the same disk, and asking which chunk is stored at a chunk's location returns that very chunk.", "quantifier": "every legal geometry (prime disk count n, stripe width k<=n, redundancy 0<f<k), every data chunk number and every parity index, over arbitrarily many repetitions of the layout", "why_tests_cant": "The existing tests check a handful of tabulated geometries; the claim rests on modular arithmetic for every prime and every chunk number.", "anchors": ["bfffs-core/src/raid/prime_s.rs: PrimeS::id2loc, PrimeS::loc2id, PrimeS::id2loc_int, PrimeS::offset_within_iteration, PrimeS::offset_within_stripe, invmod"]}
{"id": "C02", "title": "Chunks of one stripe sit on distinct disks", "statement": "All data and parity chunks belonging to one RAID stripe are placed on pairwise different disks, so losing any f disks loses at most f chunks of any stripe.", "quantifier": "every legal geometry, every stripe, every pair of chunk positions in the stripe", "why_tests_cant": "A placement collision could appear in a single stripe of a single geometry; exhaustively testing all stripes of all geometries is infeasible.", "anchors": ["bfffs-core/src/raid/prime_s.rs: PrimeS::id2loc, Locator trait"]}
{"id": "C03", "title": "Declustered layout wastes no space and never exceeds the disk", "statement": "Within each repetition of the layout every disk's rows 0..depth are each used by exactly one chunk: the layout is a bijection between chunks of the repetition and (disk,row) pairs.", "quantifier": "every legal geometry, every repetition, every disk and row", "why_tests_cant": "Requires a counting/bijection argument over all geometries.", "anchors": ["bfffs-core/src/raid/prime_s.rs: PrimeS::offset_within_iteration, PrimeS::depth, PrimeS::datachunks, PrimeS::loc2id"]}
{"id": "C04", "title": "The fast layout iterator agrees with single lookups", "statement": "Iterating over a range of chunks yields exactly the chunks of the range in order, each with the same location that an individual lookup of that chunk gives.", "quantifier": "every legal geometry, every start and end chunk (data or parity) and every range length", "why_tests_cant": "The iterator keeps incremental modular counters; a drift may only show after many wraps.", "anchors": ["bfffs-core/src/raid/prime_s.rs: PrimeSIter::next, PrimeSIter::new, PrimeS::iter"]}
{"id": "C05", "title": "Every accepted array geometry is laid out without integer overflow", "statement": "Every geometry that the layout constructor accepts (prime n up to its stated limit) is laid out using its fixed-width integers without overflow, i.e. the machine arithmetic gives the mathematically intended location.", "quantifier": "every geometry accepted by the constructor and every chunk number that fits in the array", "why_tests_cant": "The narrow integer types overflow only for some large primes that no test instantiates.", "anchors": ["bfffs-core/src/raid/prime_s.rs: PrimeS::new, PrimeS::id2loc_int, PrimeS::depth"]}
{"id": "C06", "title": "Any f lost columns of a stripe can be reconstructed exactly", "statement": "Given the parity computed when a stripe was written, the contents of any up-to-f missing columns are determined by the remaining ones, and decoding returns precisely the original bytes.", "quantifier": "every stripe geometry with m+f <= 255, every data content, every set of at most f erased columns", "why_tests_cant": "There are exponentially many erasure patterns and 256^m contents.", "anchors": ["bfffs-core/src/raid/codec.rs: Codec::new, Codec::encode, Codec::decode", "bfffs-core/src/raid/vdev_raid.rs: read_at_reconstruction"]}
{"id": "C07", "title": "Scatter/gather cursor neither drops, duplicates nor reorders bytes", "statement": "Splitting a scatter/gather list into pieces of any requested sizes yields pieces that, concatenated in order, are exactly the original bytes, and each piece is no longer than requested.", "quantifier": "every scatter/gather list (including empty segments) and every sequence of requested lengths", "why_tests_cant": "Boundary combinations of segment sizes and request sizes are unbounded.", "anchors": ["bfffs-core/src/raid/sgcursor.rs: SGCursor::next, SGCursor::peek_len", "bfffs-core/src/util.rs: copy_and_pad_sglist"]}
{"id": "C08", "title": "Partial stripes buffered in RAM are neither lost nor corrupted", "statement": "Data accumulated into the partial-stripe buffer is returned in order when the stripe is completed; padding adds only zeros, exactly up to the stripe boundary; reading not-yet-written LBAs through the buffer returns the bytes most recently appended there.", "quantifier": "every stripe size and every sequence of appended buffers", "why_tests_cant": "Any number of fragments of any length may be appended before a flush.", "anchors": ["bfffs-core/src/raid/vdev_raid.rs: StripeBuffer::fill, StripeBuffer::pad, StripeBuffer::peek, StripeBuffer::pop, VdevRaid::write_at"]}
{"id": "C09", "title": "sync is a barrier in the disk scheduler", "statement": "No operation submitted to a disk after a sync request is issued to the device before that sync, and the sync is not issued before every operation submitted ahead of it has been issued.", "quantifier": "every schedule of submissions and device completions, any queue length", "why_tests_cant": "Depends on the interleaving of submissions and completions and on the elevator state.", "anchors": ["bfffs-core/src/vdev_block.rs: Inner::sched, Inner::peek_op, Inner::pop_op, Inner::issue_all"]}
{"id": "C10", "title": "The disk scheduler issues each request exactly once and starves none", "statement": "Every submitted operation is eventually issued exactly once, whatever order operations arrive in; none is lost, duplicated or indefinitely postponed once submissions stop.", "quantifier": "every sequence of submissions and issue opportunities", "why_tests_cant": "The two elevator heaps swap dynamically; all histories must be covered.", "anchors": ["bfffs-core/src/vdev_block.rs: Inner::sched, Inner::pop_op, BlockOp::cmp"]}
{"id": "C11", "title": "Writes scheduled in LBA order are issued in LBA order", "statement": "If a batch of writes is scheduled in increasing LBA order (as zoned devices require), they are issued to the device in increasing LBA order.", "quantifier": "every elevator state and every increasing sequence of write LBAs scheduled without an intervening issue", "why_tests_cant": "Whether the claim holds depends on the position of the elevator relative to the batch.", "anchors": ["bfffs-core/src/vdev_block.rs: Inner::sched (doc comment), Inner::pop_op"]}
{"id": "C12", "title": "Coalescing adjacent requests preserves each request's effect", "statement": "When adjacent reads or writes are merged into one vectored operation, the merged operation covers exactly the LBAs and buffers of the merged requests, in LBA order, and every requester is notified once.", "quantifier": "every multiset of adjacent/non-adjacent operations", "why_tests_cant": "Merging depends on arbitrary runs of arbitrary lengths.", "anchors": ["bfffs-core/src/vdev_block.rs: BlockOp::can_accumulate, BlockOp::accumulate, Inner::issue_all"]}
{"id": "C13", "title": "The allocator never hands out the same LBA twice while it is live", "statement": "Two writes to a cluster never receive overlapping LBA ranges unless the zone that held the earlier one was entirely freed and erased in between; every allocation lies inside one open zone.", "quantifier": "every history of writes, frees, zone finishes, flushes and transaction advances, and every zone geometry", "why_tests_cant": "A double allocation needs a particular long interleaving of allocate/free/finish/reap.", "anchors": ["bfffs-core/src/cluster.rs: FreeSpaceMap::try_allocate, FreeSpaceMap::open_zone, FreeSpaceMap::finish_zone, FreeSpaceMap::free, FreeSpaceMap::reap, Cluster::write"]}
{"id": "C14", "title": "Space accounting is exact", "statement": "The reported used space of a cluster equals the LBAs allocated in its zones and not yet reclaimed, after any sequence of operations; a zone never reports more freed than allocated space.", "quantifier": "every history of allocator operations", "why_tests_cant": "Counters are updated incrementally in many places; drift appears only after particular sequences.", "anchors": ["bfffs-core/src/cluster.rs: FreeSpaceMap::allocated_space, FreeSpaceMap::in_use, FreeSpaceMap::free, FreeSpaceMap::waste_space"]}
{"id": "C15", "title": "Space maps survive being written and read back", "statement": "Flushing the free-space map and reopening it from disk yields the same state for every zone (open, closed, empty or dead, with the same allocation pointers, freed counts and transaction ranges); the pool's space totals are unchanged.", "quantifier": "every reachable free-space map, any number of zones", "why_tests_cant": "Round trip over an unbounded state space with a compact encoding that uses sentinel values.", "anchors": ["bfffs-core/src/cluster.rs: FreeSpaceMap::serialize, FreeSpaceMap::deserialize, ZoneOnDisk, SpacemapOnDisk"]}
{"id": "C16", "title": "A closed zone whose contents are all freed is eventually reusable", "statement": "Once a zone is closed and every block in it has been freed, the zone is reclaimed at the next transaction and its space can be allocated again.", "quantifier": "every history of writes, frees and zone finishes", "why_tests_cant": "Depends on the order in which frees and the zone's closing happen.", "anchors": ["bfffs-core/src/cluster.rs: FreeSpaceMap::kill_zone, FreeSpaceMap::reap, FreeSpaceMap::finish_zone, Cluster::free"]}
{"id": "C17", "title": "A crash at any point leaves a mountable, consistent pool", "statement": "After a crash at any point during transaction sync, reopening the pool finds a label and a space map belonging to the same transaction group, so no block referenced by the label's trees is considered free or erased.", "quantifier": "every crash point in the sync write sequence, any number of transactions", "why_tests_cant": "There are unboundedly many crash points and histories; unit tests do not crash the process mid-sync.", "anchors": ["bfffs-core/src/database/database.rs: Inner::sync_transaction_priv", "bfffs-core/src/cluster.rs: Cluster::flush, FreeSpaceMap::open", "bfffs-core/src/vdev_block.rs: Manager::read_label", "bfffs-core/src/label.rs"]}
{"id": "C18", "title": "Online mirror repair copies every zone that holds data", "statement": "When a mirror repair completes and the repaired child is put back in service, every allocated zone has been copied to it or was written with it present.", "quantifier": "every assignment of transaction ranges to zones and every interleaving of zone opening/closing with repair steps", "why_tests_cant": "Requires an adversarial interleaving of the writer with the repair task.", "anchors": ["bfffs-core/src/cluster.rs: Cluster::repair_mirror_step, Cluster::order_zones_for_repair, RepairMirrorTask, FreeSpaceMap::contains", "bfffs-core/src/ddml/ddml.rs: MirrorRepairTask"]}
{"id": "C19", "title": "The block cache respects its capacity and evicts least recently used first", "statement": "After any sequence of inserts, lookups and removals, the cache's total size does not exceed its capacity, equals the sum of the sizes of its entries, a lookup returns the value last inserted for that key unless evicted, and entries are evicted strictly in least-recently-used order.", "quantifier": "every sequence of cache operations and every choice of value sizes", "why_tests_cant": "The recency list is a hand-rolled linked list; a broken link shows only after particular removal orders.", "anchors": ["bfffs-core/src/cache/lru.rs: LruCache::insert, LruCache::get, LruCache::remove, LruCache::expire"]}
{"id": "C20", "title": "Concurrent cache misses are answered", "statement": "Every task that asks for a record not in the cache is eventually answered (with the record or the error), even if other tasks ask for it at the same time and even if an earlier read of that record failed.", "quantifier": "every interleaving of requesters and every outcome of the underlying read", "why_tests_cant": "Requires a failed read followed by another request, or a racing eviction.", "anchors": ["bfffs-core/src/cache/mod.rs: get_or_insert!"]}
{"id": "C21", "title": "Writeback credit is conserved", "statement": "The writeback cache never grants more credit than its capacity: outstanding credit plus available credit equals capacity when nobody is waiting in between, and credit repaid becomes available again.", "quantifier": "every sequence of borrows, splits, extensions and repayments", "why_tests_cant": "A leak of a few bytes per operation shows only after very long histories.", "anchors": ["bfffs-core/src/writeback/writeback.rs: WriteBack::borrow, WriteBack::repay, Credit::split, Credit::extend"]}
{"id": "C22", "title": "No borrower of writeback credit sleeps forever", "statement": "If a task waits for writeback credit and enough credit is later repaid, the task is woken.", "quantifier": "every interleaving of the atomic steps of concurrent borrow and repay calls", "why_tests_cant": "It is a lost-wakeup race between individual atomic instructions.", "anchors": ["bfffs-core/src/writeback/writeback.rs: WriteBack::borrow, WriteBack::repay, Inner::awaken"]}
{"id": "C23", "title": "Records keep their identity while the cleaner moves them", "statement": "Reading a record id returns the bytes stored under it, from the time it was put until it is deleted, no matter how often the garbage collector relocates it; record ids are never reused; and the forward and reverse address tables stay mutually inverse.", "quantifier": "every history of put, get, pop, delete, move and zone cleaning", "why_tests_cant": "Histories are unbounded and relocation changes three structures at once.", "anchors": ["bfffs-core/src/idml/idml.rs: IDML::put, IDML::delete, IDML::pop, IDML::move_record, IDML::clean_zone, IDML::check_ridt"]}
{"id": "C24", "title": "Deleting a record while it is being cleaned is safe", "statement": "If a record is deleted concurrently with the garbage collector relocating it, afterwards the record is gone, both its old and new disk space are freed exactly once, and the address tables stay consistent.", "quantifier": "every interleaving of the steps of a relocation and a deletion of the same record", "why_tests_cant": "A race between two background tasks.", "anchors": ["bfffs-core/src/idml/idml.rs: IDML::move_record, IDML::delete, IDML::pop"]}
{"id": "C25", "title": "Data set identifiers and names are consistent", "statement": "Creating a data set gives it an identifier no live data set has; looking its path up returns that identifier; destroying it removes exactly it and is refused while it has children; listing a data set's children, resumed at any entry, returns every child exactly once.", "quantifier": "every history of data set creations and destructions, every name hash function without collisions among siblings", "why_tests_cant": "Requires all histories and resumption at every point.", "anchors": ["bfffs-core/src/database/mod.rs: Forest::insert_tree, Forest::lookup, Forest::unlink, Forest::readdir, ForestKey"]}
{"id": "C26", "title": "sync makes all completed writes durable", "statement": "When a sync request returns success, every write that completed before the sync was requested is on stable storage.", "quantifier": "every interleaving of writers, the background syncer and explicit syncs, and every failure of an earlier sync", "why_tests_cant": "Depends on the interleaving of a dirty flag, a read/write lock and other syncs.", "anchors": ["bfffs-core/src/database/database.rs: Inner::fswrite, Database::sync_transaction, Inner::sync_transaction_priv"]}
{"id": "C27", "title": "The B-tree behaves as an ordered map", "statement": "Any sequence of insert, remove, point lookup, last-key and range queries on the copy-on-write B-tree returns what a sorted map would return, including the previous value on insert and remove.", "quantifier": "every key order, every tree shape and fanout limit, every sequence of operations of any length", "why_tests_cant": "Splits, merges and rebalancing happen on data-dependent paths of unbounded depth.", "anchors": ["bfffs-core/src/tree/tree/mod.rs: Tree::insert, Tree::get, Tree::remove, Tree::last_key, Tree::get_range", "bfffs-core/src/tree/node.rs: NodeData, LeafData, IntData"]}
{"id": "C28", "title": "The B-tree stays balanced and within its fanout limits", "statement": "After any sequence of inserts and removes every leaf is at the same depth, every node except the root has between the minimum and maximum fanout, and separator keys bound their subtrees.", "quantifier": "every fanout configuration the software creates, every operation sequence", "why_tests_cant": "An underfull or unsorted node may only arise after long sequences.", "anchors": ["bfffs-core/src/tree/tree/mod.rs: Tree::insert_int, Tree::fix_int, Tree::remove_int, Tree::check", "bfffs-core/src/tree/node.rs: NodeData::split, NodeData::merge, NodeData::take_low_keys, NodeData::take_high_keys"]}
{"id": "C29", "title": "Range deletion removes exactly the keys of the range", "statement": "Deleting a key range from the B-tree removes all keys within it, no others, and leaves a tree on which later operations still behave as on a map.", "quantifier": "every range with any bound kinds, every tree shape", "why_tests_cant": "Two-pass algorithm with many structural cases.", "anchors": ["bfffs-core/src/tree/tree/mod.rs: Tree::range_delete, range_delete_pass1, range_delete_pass2", "bfffs-core/src/util.rs: RangeBoundsExt::is_empty"]}
{"id": "C30", "title": "Flushing the B-tree loses nothing", "statement": "After a flush, the on-disk tree reached from the saved root contains exactly the key/value pairs that were in memory, everything is clean, and records that were already clean are not rewritten.", "quantifier": "every tree with any mixture of dirty and clean nodes", "why_tests_cant": "Mixture patterns over unbounded trees.", "anchors": ["bfffs-core/src/tree/tree/mod.rs: Tree::flush, flush_once, flush_r, flush_leaves, write_leaf, Tree::serialize"]}
{"id": "C31", "title": "Searching by transaction range finds every affected record", "statement": "Listing the disk records of a tree born in a given range of transactions returns every such record (pruning by the recorded transaction ranges never skips one).", "quantifier": "every history of operations and flushes in increasing transactions and every queried range", "why_tests_cant": "Relies on a cover invariant maintained on all code paths.", "anchors": ["bfffs-core/src/tree/tree/mod.rs: Tree::addresses", "bfffs-core/src/tree/node.rs: IntElem::xlock, IntElem::xlock_nc, NodeData::start_txg"]}
{"id": "C32", "title": "File system keys group and order objects correctly", "statement": "On-disk keys sort by (object, kind, offset); keys of different objects, kinds or offsets are different; and the key ranges used for directory listing, extents, attributes and deletion contain exactly the keys they are meant to.", "quantifier": "all 64-bit object numbers, all kinds, all offsets", "why_tests_cant": "Bit packing over 2^128 keys.", "anchors": ["bfffs-core/src/fs_tree.rs: FSKey::compose, FSKey::new, FSKey::obj_range, FSKey::extent_range, FSKey::dirent_range, FSKey::extattr_range, FSKey::dying_inode_range"]}
{"id": "C33", "title": "Hashed directories and attributes behave as maps despite collisions", "statement": "Creating, looking up, replacing, listing and removing directory entries or extended attributes behaves as a map keyed by the (namespace and) name, even when different names have equal hashes.", "quantifier": "every hash function (any collision pattern) and every sequence of operations", "why_tests_cant": "Collisions of the production 56-bit hash cannot be produced by ordinary tests in all patterns.", "anchors": ["bfffs-core/src/fs.rs: htable::get, htable::insert, htable::remove, Fs::setextattr, Fs::getextattr, Fs::getextattrlen, Fs::deleteextattr, Fs::listextattr"]}
{"id": "C34", "title": "Reading a file returns what was written", "statement": "Reading any region of a regular file returns, for each byte, the value most recently written there, zero for bytes never written, punched out, or exposed by extending the file, truncated at the file size.", "quantifier": "every record size, every sequence of writes, truncations, extensions and hole punches with any offsets and lengths", "why_tests_cant": "Sub-record, multi-record, sparse and truncation cases combine without bound.", "anchors": ["bfffs-core/src/fs.rs: Fs::write, Fs::write_record, Fs::do_read, Fs::do_deallocate, Fs::deallocate, Fs::do_setattr, Uio::into_chunks, Uio::nrecs"]}
{"id": "C35", "title": "A file's allocated-bytes attribute is exact", "statement": "The number of bytes a file reports as allocated always equals the total length of its stored extents.", "quantifier": "every sequence of writes, truncations and hole punches", "why_tests_cant": "Incrementally maintained on every code path.", "anchors": ["bfffs-core/src/fs.rs: Fs::write, Fs::write_record, Fs::do_deallocate, Fs::do_setattr, Fs::deallocate"]}
{"id": "C36", "title": "Seeking for data or holes finds the right offset", "statement": "Seeking for data returns the smallest offset at or after the given one that lies in a stored extent (or ENXIO if none); seeking for a hole returns the smallest offset at or after the given one that does not (the end of file counts as a hole).", "quantifier": "every extent layout and every starting offset up to the file size", "why_tests_cant": "Layouts are unbounded; trailing holes are easy to miss.", "anchors": ["bfffs-core/src/fs.rs: Fs::lseek"]}
{"id": "C37", "title": "Listing a directory in pieces returns every entry exactly once", "statement": "Reading a directory with arbitrary interruption, resuming each time at the offset of the last entry received, returns every entry exactly once and terminates.", "quantifier": "every directory content, every hash collision pattern, every interruption pattern", "why_tests_cant": "Requires interruption inside hash-collision buckets.", "anchors": ["bfffs-core/src/fs.rs: Fs::readdir, Cursor, ReaddirStream", "bfffs-core/src/fs_tree.rs: FSKey::dirent_range"]}
{"id": "C38", "title": "Link counts match the directory tree", "statement": "After any sequence of namespace operations a file's link count equals the number of directory entries naming it and a directory's link count equals two plus its number of subdirectories.", "quantifier": "every history of create, mkdir, link, unlink, rename and rmdir accepted by the VFS", "why_tests_cant": "Rename has many sub-cases; histories are unbounded.", "anchors": ["bfffs-core/src/fs.rs: Fs::do_create, Fs::mkdir, Fs::link, Fs::unlink, Fs::do_unlink, Fs::rename, Fs::rmdir, Fs::do_rmdir"]}
{"id": "C39", "title": "Open files survive being unlinked", "statement": "A file that is still open keeps its inode and data after its last name disappears, until it is released; once released it is deleted; after a crash it is deleted at next mount.", "quantifier": "every history of unlink/rename-over/forget with any set of open files", "why_tests_cant": "Combination of open state and namespace operations.", "anchors": ["bfffs-core/src/fs.rs: Fs::unlink, Fs::do_unlink, Fs::inactive, Fs::do_inactive, Fs::rename, Fs::new", "bfffs/src/bin/bfffsd/fs.rs: FuseFs::unlink, FuseFs::rename, FuseFs::forget"]}
{"id": "C40", "title": "Adding a hard link leaves all other names intact", "statement": "Creating a hard link adds exactly the requested name and changes no other directory entry.", "quantifier": "every directory content and every name hash function", "why_tests_cant": "Only visible under a hash collision.", "anchors": ["bfffs-core/src/fs.rs: Fs::link"]}
{"id": "C41", "title": "Inode numbers are never reused", "statement": "No two files ever created in a file system have the same inode number, across unmounts and remounts.", "quantifier": "every history of create, unlink, unmount and mount", "why_tests_cant": "Requires deleting the highest-numbered object right before a remount.", "anchors": ["bfffs-core/src/fs.rs: Fs::new, Fs::next_object, Fs::ilookup (doc comment)"]}
{"id": "C42", "title": "Concurrent writes to a file are all preserved", "statement": "If several writes to one file run concurrently, after all succeed the file is at least as large as every write's end and contains each non-overlapping write.", "quantifier": "every interleaving of the steps of concurrent writes", "why_tests_cant": "A lost-update race between separate transactions.", "anchors": ["bfffs-core/src/fs.rs: Fs::write"]}
{"id": "C43", "title": "Property values survive printing and parsing", "statement": "Printing a property and parsing the text gives back the same property; every documented record size is accepted and nothing else.", "quantifier": "every property value", "why_tests_cant": "Each constant of the lookup table must be right.", "anchors": ["bfffs-core/src/property.rs: Property::from_str, Property::fmt, PropertyName"]}
{"id": "C44", "title": "Properties are inherited from the nearest ancestor", "statement": "The effective value of an inheritable property is the one set on the nearest ancestor (or the data set itself), otherwise the default, and the reported source is the distance to that ancestor; a derived mountpoint appends precisely the path components below that ancestor.", "quantifier": "every data set tree depth and every assignment of properties", "why_tests_cant": "Depth and names are unbounded.", "anchors": ["bfffs-core/src/fs.rs: Fs::get_prop_configurable", "bfffs-core/src/controller.rs: Controller::get_prop_locked"]}
{"id": "C45", "title": "Data set names of another pool are rejected", "statement": "A name is resolved in a pool only if it is the pool's name or begins with the pool's name followed by a slash.", "quantifier": "every pool name and every requested name", "why_tests_cant": "Prefix-related names are unbounded.", "anchors": ["bfffs-core/src/controller.rs: Controller::strip_pool_name"]}
{"id": "C46", "title": "Labels: the newest intact label is used and corruption is detected", "statement": "A label written to disk is read back identically; a label whose bytes are corrupted (as detected by its checksum) is rejected and the other copy is used.", "quantifier": "every label content that fits and every state of the two copies", "why_tests_cant": "Contents are arbitrary byte strings and any crash may tear a copy.", "anchors": ["bfffs-core/src/label.rs: LabelReader, LabelWriter", "bfffs-core/src/vdev_block.rs: Manager::read_label, VdevBlock::write_label"]}
{"id": "C47", "title": "Zone boundaries partition the device", "statement": "Zone limits of consecutive zones are contiguous and disjoint, and an LBA's zone is the one whose limits contain it; reserved label LBAs belong to no zone.", "quantifier": "every device size, zone size, geometry and LBA", "why_tests_cant": "Rounding at both ends of zones for all sizes.", "anchors": ["bfffs-core/src/vdev_file.rs: lba2zone, zone_limits, zones", "bfffs-core/src/raid/vdev_raid.rs: VdevRaid::lba2zone, VdevRaid::zone_limits"]}
{"id": "C48", "title": "Directory moves that would create a cycle are refused", "statement": "Renaming a directory into itself or one of its descendants is refused, and other renames are not refused for this reason.", "quantifier": "every directory tree and every rename request", "why_tests_cant": "Depth is unbounded.", "anchors": ["bfffs/src/bin/bfffsd/fs.rs: FuseFs::rename"]}
{"id": "C49", "title": "Compression is transparent and only used when it saves space", "statement": "A stored record is read back byte for byte whether or not it was compressed; compression is kept only if it saves at least one LBA.", "quantifier": "every record content and every compressor", "why_tests_cant": "Contents unbounded.", "anchors": ["bfffs-core/src/dml.rs: Compression::compress, Compression::decompress", "bfffs-core/src/ddml/ddml.rs: put_common, read", "bfffs-core/src/ddml/mod.rs: DRP"]}
{"id": "C50", "title": "Checksum failures are repaired from redundancy", "statement": "If a record's checksum does not match but another redundant copy is good, reading the record returns the good data.", "quantifier": "every record length and every set of corrupt copies with at least one good", "why_tests_cant": "Depends on record length modulo the LBA size and the corruption pattern.", "anchors": ["bfffs-core/src/ddml/ddml.rs: DDML::read", "bfffs-core/src/raid/vdev_raid.rs: read_long", "bfffs-core/src/mirror.rs: read_long"]}
{"id": "C51", "title": "A mirror serves reads while any child has good data", "statement": "A mirror read succeeds whenever at least one present child can serve it, and returns that child's data.", "quantifier": "every number of children and every failure pattern and round-robin position", "why_tests_cant": "Failure patterns are exponential.", "anchors": ["bfffs-core/src/mirror.rs: Mirror::read_at, ReadAt::poll, Children"]}
{"id": "C52", "title": "Pool health is never reported better than its worst component", "statement": "The reported health of mirrors, RAID and pool is faulted exactly when data is unreachable and degraded exactly when redundancy is reduced.", "quantifier": "every combination of child states", "why_tests_cant": "Exponential combinations.", "anchors": ["bfffs-core/src/mirror.rs: Mirror::status", "bfffs-core/src/raid/vdev_raid.rs: VdevRaid::status", "bfffs-core/src/pool.rs: Pool::status", "bfffs-core/src/vdev.rs: Health"]}
{"id": "C53", "title": "Sequential reads are spread evenly over the disks", "statement": "Reading c consecutive data chunks asks no disk for more chunks than the advertised parallel read count, ceil(c/n)+1.", "quantifier": "every legal geometry, every start chunk, every length and every disk", "why_tests_cant": "Quantifies over all offsets and lengths; exceptional alignments at iteration boundaries are rare.", "anchors": ["bfffs-core/src/raid/prime_s.rs: PrimeS::parallel_read_count, PrimeS::id2loc"]}
{"id": "C54", "title": "Each disk stores its chunks in increasing order", "statement": "Of two chunks stored on the same disk, the one that comes earlier in stripe order is at the smaller row, so a sequential write is sequential on every disk (needed for zoned disks).", "quantifier": "every legal geometry and every pair of chunks (data or parity)", "why_tests_cant": "Pairs of chunks are unbounded; the offset formula merges data and parity by a counting argument.", "anchors": ["bfffs-core/src/raid/prime_s.rs: PrimeS::id2loc, PrimeS::offset_within_iteration"]}
{"id": "C55", "title": "Padding to whole blocks changes no data", "statement": "Padding a scatter/gather list for a block device yields buffers that are each a whole number of blocks and whose contents are the original bytes followed by less than one block of zeros, for any list; a zero-filled list of n bytes holds exactly n zeros.", "quantifier": "every list of buffers of any lengths; every n", "why_tests_cant": "Buffer lengths and their combinations are unbounded; the accumulator's cases interact.", "anchors": ["bfffs-core/src/util.rs: copy_and_pad_sglist, zero_sglist"]}
{"id": "C56", "title": "The allocator obeys the zoned-device protocol", "statement": "In every history of writes, frees, transaction boundaries, syncs and remounts, the calls a cluster makes to its device follow the zone protocol: a zone is opened only when empty, written only while open and exactly at its write pointer and never past its end, flushed only by padding to a stripe boundary, finished only while open, and erased only when full.", "quantifier": "every legal history of cluster operations, any zone geometry", "why_tests_cant": "The protocol constrains whole histories; each test sees one short history.", "anchors": ["bfffs-core/src/cluster.rs: Cluster::write, Cluster::flush, Cluster::free, Cluster::advance_transaction, Cluster::open"]}
{"id": "C57", "title": "No tree record is leaked or freed twice", "statement": "Whatever is inserted into, removed from and flushed through a copy-on-write B-tree, every disk address the tree was given is at all times either the address of exactly one node of the tree or was given back exactly once.", "quantifier": "every sequence of inserts, removes, flushes and reopens of any length, in any transactions, every fanout configuration", "why_tests_cant": "A leak or double free shows only as slowly lost space or as corruption of unrelated data, after particular sequences of splits, merges and steals on partly flushed trees.", "anchors": ["bfffs-core/src/tree/tree/mod.rs: insert, remove, fix_int, flush", "bfffs-core/src/tree/node.rs: xlock, take_high_keys, merge"]}
{"id": "C58", "title": "No blob of a file is leaked or freed twice", "statement": "Whatever is written to, truncated from and deallocated in a file, every out-of-line block of data that the file was ever given is at all times either referenced by exactly one extent of the file or has been freed exactly once, and every extent that refers to one refers to a live one.", "quantifier": "every sequence of writes, reads, truncations, deallocations and transaction syncs of any length, every record size", "why_tests_cant": "Leaks and double frees show only as slowly lost space or corruption of other data after particular sequences of partial overwrites and truncations across syncs.", "anchors": ["bfffs-core/src/fs.rs: write_record, do_deallocate, do_setattr", "bfffs-core/src/fs_tree.rs: InlineExtent, BlobExtent, FSValue flush/dpop/ddrop"]}
{"id": "C59", "title": "Removing a disk cancels what waits and completes when the disk is idle", "statement": "Once removal of a disk is requested nothing more is issued to it; every request still waiting is answered with ENXIO; and the removal completes when, and only when, the operations already in flight have finished.", "quantifier": "every schedule of submissions, completions and one removal, with any merging of adjacent requests", "why_tests_cant": "The accounting error needs a particular number of merged requests to be waiting at the moment of removal; a test with one or two unmerged requests always passes.", "anchors": ["bfffs-core/src/vdev_block.rs::Inner::issue_all", "bfffs-core/src/vdev_block.rs::Inner::issue_fut", "bfffs-core/src/vdev_block.rs::RemoveFut"]}
{"id": "C60", "title": "Every directory operation changes exactly the names it should", "statement": "Creating, making, linking, unlinking, renaming and removing change exactly the requested names: the new name leads to the object, the old one is gone, '..' of a moved directory follows, an object replaced or removed takes only its own names with it, every other name still leads where it led; and the operation fails exactly when the name is missing, the directory to be removed or replaced is not empty, or '.' or '..' is renamed.", "quantifier": "every reachable directory tree, every legal request, every name hash function (collisions included, except for link)", "why_tests_cant": "Depends on which names share a hash bucket and on all combinations of source, destination and replaced object in rename.", "anchors": ["bfffs-core/src/fs.rs: Fs::do_create, Fs::mkdir, Fs::link, Fs::unlink, Fs::rename, Fs::rmdir, Fs::ok_to_rmdir, Fs::lookup", "bfffs-core/src/fs/htable.rs"]}
{"id": "C61", "title": "Entries present throughout a listing are listed exactly once", "statement": "While a directory is listed in pieces other entries may be created and removed between the pieces; an entry that is there all the time is still returned exactly once.", "quantifier": "every sequence of directory contents between the pieces, every interruption pattern, every hash collision pattern", "why_tests_cant": "Needs a removal that shrinks the very bucket in which the listing was interrupted.", "anchors": ["bfffs-core/src/fs.rs: Fs::readdir, Cursor, ReaddirStream"]}
{"id": "C62", "title": "Zones are filled on every disk without a gap", "statement": "Opening a RAID zone zero-fills each disk from the start of its zone to the first row that belongs to the RAID zone, and the stripes of the zone, written in order, occupy consecutive rows from there on each disk: a disk that only accepts sequential writes within a zone never sees a gap or a step back.", "quantifier": "every declustered geometry, chunk size, zone map of the disks, zone, disk and number of stripes written", "why_tests_cant": "The first usable row differs from disk to disk and from zone to zone, depending on where the zone boundary falls in the layout pattern.", "anchors": ["bfffs-core/src/raid/vdev_raid.rs: VdevRaid::open_zone_priv, VdevRaid::zone_limits", "bfffs-core/src/raid/prime_s.rs"]}
{"id": "C63", "title": "A RAID device that lost no more disks than it tolerates keeps working", "statement": "With at most the tolerated number of children lost, a RAID device can still be imported and can still commit transactions: its space map is read and its labels are written to every up-to-date disk and to no other.", "quantifier": "every number of children, every set of lost mirrors and disks within the tolerance", "why_tests_cant": "Failure patterns are exponential; tests write labels only with all disks present.", "anchors": ["bfffs-core/src/raid/vdev_raid.rs: VdevRaid::write_label, VdevRaid::read_spacemap, Child::write_label, Child::read_spacemap", "bfffs-core/src/mirror.rs: Mirror::write_label"]}
{"id": "C64", "title": "After import only disks that have the latest committed transaction are trusted", "statement": "When a pool is imported, a disk is used for reading only if its label carries the latest transaction found on any disk of the pool; a disk with an older label is rebuilt or ignored.", "quantifier": "every set of disks found and every combination of their transaction numbers", "why_tests_cant": "The combinations of disks that were away while transactions were committed are unbounded.", "anchors": ["bfffs-core/src/mirror.rs: Mirror::open", "bfffs-core/src/raid/vdev_raid.rs: VdevRaid::open"]}
{"id": "C65", "title": "An interrupted mirror repair can be resumed", "statement": "At every moment of a mirror repair, the transaction recorded on the label of the disk under repair promises no more than what has been copied: every closed zone last written before that transaction is on the disk. A repair that is interrupted and resumed from the label therefore misses nothing.", "quantifier": "every state of the pool at the start of the repair, every list of zones, every interleaving of writes, deletions and transaction ends with the steps of the repair", "why_tests_cant": "Needs a zone to be emptied, erased and reopened between two steps of the repair, then an interruption; tests repair pools at rest.", "anchors": ["bfffs-core/src/cluster.rs: Cluster::repair_mirror_step, Cluster::order_zones_for_repair", "bfffs-core/src/raid/vdev_raid.rs: VdevRaid::repair_label", "bfffs-core/src/ddml/ddml.rs: MirrorRepairTask"]}
{"id": "C66", "title": "The record store returns what was put and accounts for every block", "statement": "A record put into the store at a physical address is returned byte for byte by every later read, pop, cached or not, compressed or not, until it is deleted; records never overlap; the space reported as used is exactly the blocks of the records held, through transaction boundaries, syncs and remounts.", "quantifier": "every history of put, get, pop, delete, evict, transaction boundary, sync and remount of any length, any record size, any compression, any zone geometry", "why_tests_cant": "Reuse of erased zones, cache state and compression interact over unbounded histories.", "anchors": ["bfffs-core/src/ddml/ddml.rs: DDML::put, DDML::get, DDML::pop, DDML::delete, DDML::put_direct, DDML::read", "bfffs-core/src/ddml/mod.rs: DRP", "bfffs-core/src/dml.rs: Compression"]}
{"id": "C67", "title": "Cleaning a zone is safe whenever transactions end", "statement": "While the garbage collector cleans a zone, clients may put, read and delete other records and transactions may end at any moment: no operation panics and every record is returned as it was put.", "quantifier": "every interleaving of the steps of a cleaning with puts, reads, deletions of other records and ends of transactions", "why_tests_cant": "Needs a transaction to end between two particular steps of a background task, and the erased zone to be reused before the next.", "anchors": ["bfffs-core/src/cleaner.rs: SyncCleaner::clean_now", "bfffs-core/src/idml/idml.rs: IDML::clean_zone, IDML::move_record, IDML::advance_transaction"]}
{"id": "C68", "title": "A pool can be mounted after any sequence of crashes", "statement": "However often the machine crashes while a sync writes the two labels of a disk, the next mount finds a label, and it is the label of the last sync whose first copy was completely written: never an older one, never none.", "quantifier": "every sequence of formats, syncs and crashes at any point of either label write, any bytes left behind by an interrupted write", "why_tests_cant": "Needs power failures in the middle of a label write, repeated in particular orders; tests do not crash the machine.", "anchors": ["bfffs-core/src/label.rs: LabelReader::new, LabelWriter", "bfffs-core/src/vdev_block.rs: VdevBlock::write_label, Manager::read_label", "bfffs-core/src/database/database.rs: Inner::sync_transaction_priv"]}
{"id": "C69", "title": "A failed data set operation has no effect", "statement": "If creating, destroying, mounting or unmounting a data set fails, then the data sets, their identifiers, the mounts and the space in use are what they were before.", "quantifier": "every history of data set creations, destructions, mounts and unmounts, every failing operation after it", "why_tests_cant": "The failing operation still writes to the pool before it fails; a test that only looks at the error or at the listing does not see what is left behind.", "anchors": ["bfffs-core/src/database/database.rs: Database::create_fs, Inner::destroy_fs", "bfffs-core/src/database/mod.rs: Forest::insert_tree, Forest::unlink", "bfffs-core/src/controller.rs: Controller::create_fs, Controller::destroy_fs"]}
{"id": "C70", "title": "Everyone who opens a data set sees the same data set", "statement": "A write to a data set that has completed is seen by every read that starts later, whichever task opened the data set first; and opening, destroying and creating data sets at the same time never panics, never makes a sync fail, and never brings back the contents of a destroyed data set.", "quantifier": "every interleaving of the tasks that open, read, write, create and destroy data sets and of the syncs", "why_tests_cant": "The damage needs two tasks to be inside the opening of the same data set at once; it shows only in later reads, in a later background sync, or in a data set created later.", "anchors": ["bfffs-core/src/database/database.rs: Inner::open_filesystem, Inner::new_filesystem, Inner::destroy_fs, Database::create_fs, Syncer::run"]}
{"id": "C71", "title": "Reads succeed with as many disks absent as there is parity", "statement": "If no more disks are absent than the array has parity for, every read of stored data - of any length, any alignment, within a stripe or across any number of them - succeeds and returns exactly the bytes stored, rebuilt from the disks that are left.", "quantifier": "every legal layout, chunk size and block size, every contents of the array, every set of absent disks no larger than the redundancy, every range read and every previous content of the buffer", "why_tests_cant": "Which disks a range touches, which pieces of chunks must be read besides and which buffers they land in depends on the layout, the alignment and the set of absent disks together; tests try one or two layouts with one missing disk.", "anchors": ["bfffs-core/src/raid/vdev_raid.rs: VdevRaid::read_at, read_at_one, read_at_multi, read_at_reconstruction", "bfffs-core/src/raid/codec.rs: Codec::decode", "bfffs-core/src/raid/prime_s.rs"]}
{"id": "C72", "title": "A disk error never yields wrong data and is recovered from while parity suffices", "statement": "Whatever disks fail at whatever addresses, a read that reports success has returned the bytes stored. And if no more disks fail than the array has parity for, the read succeeds, whether or not the disks were known to be absent.", "quantifier": "every legal layout, chunk size and block size, every contents, every pattern of failing reads, every range read, every number of disks known to be absent", "why_tests_cant": "Recovery is a second round of reads that depends on which of the first round failed; the cases (aligned or not, one stripe or many, known degraded or not) multiply and each has its own code path.", "anchors": ["bfffs-core/src/raid/vdev_raid.rs: VdevRaid::read_at, read_at_one, read_at_multi, read_at_reconstruction"]}
{"id": "C73", "title": "Whole-stripe writes leave data and parity on every disk that did not fail", "statement": "A write of any number of whole stripes never panics, reports an error only if more disks failed than the array has parity for, and leaves on every other disk exactly the written data and the parity that belongs to it, changing nothing else. With up to that many disks absent every write succeeds and any range then reads back the new contents. After a write that reported success, its data can always be read.", "quantifier": "every legal layout, chunk size, block size, every old contents, every buffer of whole stripes, every place, every pattern of failing writes and whatever they leave behind, every later read", "why_tests_cant": "One stripe, many stripes and scattered stripes take three code paths which must agree with each other and with the reading side about where each piece goes; errors during writes are rarely injected.", "anchors": ["bfffs-core/src/raid/vdev_raid.rs: VdevRaid::write_at, write_at_one, writev_at_one, write_at_multi, issue_1stripe_writes"]}
{"id": "C74", "title": "Flushed data survives the loss of as many disks as there is parity", "statement": "Whatever is appended to the zones of an array, in whatever pieces and order, with openings, flushes and finishes of zones in between, once a zone is flushed any range of it reads back exactly what was appended to it, from any disks that are left as long as no more are absent than there is parity.", "quantifier": "every layout, chunk size and zone geometry, every sequence of operations on any number of zones, every set of absent disks within the redundancy, every previous contents of the disks, every range", "why_tests_cant": "It composes the stripe buffer, the padding, the choice between three write paths, the code, the layout and the degraded read path; tests cover each with a few sizes.", "anchors": ["bfffs-core/src/raid/vdev_raid.rs: VdevRaid::write_at, flush_zone, open_zone, finish_zone, read_at, StripeBuffer"]}
{"id": "C75", "title": "A long read offers the true data whenever the disks still determine it", "statement": "When data fails its checksum, the array can be asked for every version of it that can be made from its disks. This never panics and yields buffers of the right size whatever the disks return; and if no more disks fail or silently return wrong data than the array has parity for, the true data is among the versions.", "quantifier": "every legal layout, chunk size and block size, every contents, every range within a stripe or across stripes, every set of bad disks within the redundancy, whatever they return", "why_tests_cant": "The versions are all combinations of disks to leave out, per stripe in one code path and for the whole range in the other; a test has to corrupt the right chunks of the right stripes to see one missing.", "anchors": ["bfffs-core/src/raid/vdev_raid.rs: VdevRaid::read_long, read_long_one, read_long_multi"]}
{"id": "C76", "title": "A mirror never reads from a disk that lacks stored data, however disks are faulted and replaced", "statement": "While a pool is in use its operator faults disks and adds new ones, and each new disk is rebuilt in the background. At any time every disk that reads may be served from has every block that is stored; a disk that was faulted, or whose rebuilding is not finished, is not among them.", "quantifier": "every mirror, every pool contents, every interleaving of the users' operations, the steps of all repair tasks, faults and additions of disks", "why_tests_cant": "It takes a fault and a replacement in the middle of a repair, at the right step; the tests repair one disk of an idle pool.", "anchors": ["bfffs-core/src/ddml/ddml.rs: DDML::attach, fault, repair_mirror, MirrorRepairTask", "bfffs-core/src/mirror.rs: Mirror::attach, fault, repair_zone, restore"]}
{"id": "C77", "title": "The daemon answers the kernel as the file system would, and never panics", "statement": "The daemon keeps a cache of names and of files that must agree with the kernel's. For every sequence of requests that a kernel may send to a mounted file system: no request makes the daemon panic; each is answered, and changes names, as the file system itself should; a file the kernel holds exists, with or without a name; and a file without a name is gone once the kernel has forgotten it.", "quantifier": "every earlier history of the file system, every sequence and overlap of lookups, creations, links, removals, renames and forgets of any names", "why_tests_cant": "Whether the two caches agree depends on the whole history of requests and on requests that overlap; tests send short sequences to a mocked file system.", "anchors": ["bfffs/src/bin/bfffsd/fs.rs: FuseFs::lookup, create, mkdir, link, unlink, rmdir, rename, forget, cache_file, handle_new_entry", "bfffs-core/src/fs.rs: Fs::lookup, inactive, FileDataMut"]}
{"id": "C78", "title": "Lookups of \".\" and \"..\" give the directory and its parent", "statement": "An NFS server reaches a file system through lookups of \".\" and \"..\". At any time the first gives the directory itself and the second the directory that now contains it.", "quantifier": "every history of requests, every directory, whether or not it has been moved or forgotten since", "why_tests_cant": "The answer is taken from a cache that is filled by one request and must be kept up to date by others such as rename; tests do one such lookup each.", "anchors": ["bfffs/src/bin/bfffsd/fs.rs: FuseFs::lookup, rename, forget", "bfffs-core/src/fs.rs: Fs::lookup, ilookup"]}
{"id": "C79", "title": "A pool never gives out a block twice and counts used space exactly", "statement": "Blocks written to a pool and not yet freed never overlap, on any cluster; no legal use makes the pool panic; and the space it reports as used is the number of blocks its clients hold.", "quantifier": "every number, size and zone layout of clusters, every history of writes that succeed or fail, reads, frees, transaction ends, flushes and imports, in every order of completion", "why_tests_cant": "The cluster for each write is chosen by floating-point arithmetic on occupancy and queue depths, so that reachable states depend on all earlier completions; tests mock the clusters and make a few writes.", "anchors": ["bfffs-core/src/pool.rs: Pool::write, Write::poll, free, read, open, new, advance_transaction, flush, choose_cluster"]}
{"id": "C80", "title": "A pool refuses a write only if no cluster has room", "statement": "If a write to a pool fails with ENOSPC, then no zone of any of its clusters has room for it, or room appears when the current transaction ends.", "quantifier": "every pool and state, every length of write, with any reads and writes under way", "why_tests_cant": "The choice of the cluster is heuristic and is not revised when the chosen cluster is full; a test only sees the few states it constructs.", "anchors": ["bfffs-core/src/pool.rs: Stats::choose_cluster, Pool::write", "bfffs-core/src/cluster.rs: Cluster::write"]}
{"id": "C81", "title": "The cleaner sees every closed zone exactly once", "statement": "Listing the closed zones of a pool ends and yields each full zone that is not about to be erased exactly once, with its place, its size and how many of its blocks are no longer used.", "quantifier": "every pool of any number of clusters and every reachable state", "why_tests_cant": "The iteration spans clusters and resumes within each; tests use mocks with one or two clusters and a handful of zones.", "anchors": ["bfffs-core/src/ddml/ddml.rs: ListClosedZones", "bfffs-core/src/pool.rs: Pool::find_closed_zone", "bfffs-core/src/cluster.rs: find_closed_zone"]}
{"id": "C82", "title": "The cleaner cleans exactly the zones that are at least half unused, the dirtiest first", "statement": "With the default threshold the cleaner picks exactly the full zones at least half of whose blocks are unused, each once, and cleans zones with more unused space first.", "quantifier": "every pool and reachable state, every size of zones", "why_tests_cant": "The comparison is made in single-precision arithmetic, whose rounding shows only for particular sizes; tests use a few small ones.", "anchors": ["bfffs-core/src/cleaner.rs: SyncCleaner::select_zones, DEFAULT_THRESHOLD"]}
{"id": "C83", "title": "A full zone's reported transactions include every write to it", "statement": "The cleaner is told in which transactions a full zone was written. If writes come in the order of their transactions, then everything a client still holds in a reported zone was written in one of them; and none of them lies in the future.", "quantifier": "every cluster, every history of writes, frees, erasures and imports with transactions that never go back, every full zone", "why_tests_cant": "The range is kept by three functions that run when a zone is opened, filled and reloaded, and errors show only when a later cleaning skips a node; tests look at single zones.", "anchors": ["bfffs-core/src/cluster.rs: FreeSpaceMap::open_zone, finish_zone, find_closed_zone, ClosedZone::txgs"]}
{"id": "C84", "title": "Cleaning a zone moves every tree node out of it and changes nothing else", "statement": "Cleaning a zone, told in which transactions it was written, ends without a panic and leaves no node of the tree in the zone; all nodes that were in it have been given back; every key has the value it had; and in histories with any number of cleanings a tree is still the map that was put into it, and every block written for it is in use or was given back once.", "quantifier": "every tree of every size limits and height, every history of insertions, removals, flushes, reopenings and cleanings, every zone, every order in which nodes are moved", "why_tests_cant": "Which nodes are found depends on transaction ranges kept in every interior node, through splits and merges; a wrong one makes the search skip a subtree only for particular histories. Tests clean trees written out by hand.", "anchors": ["bfffs-core/src/tree/tree/mod.rs: Tree::clean_zone, CleanZonePass1, get_dirty_nodes, get_dirty_nodes_r, rewrite_node, rewrite_node_r"]}
{"id": "C85", "title": "Cleaning works while the tree is in use", "statement": "While a zone is cleaned, others may insert and remove; whatever they do between the cleaner's steps, neither they nor the cleaner panic, the tree is the map they put into it, and when the cleaning ends no node is in the zone.", "quantifier": "every tree, zone and history, every interleaving of insertions and removals with the cleaner's searches and moves", "why_tests_cant": "Nodes split, merge and change levels between the search and the move; a test would have to stop the cleaner at every point of it.", "anchors": ["bfffs-core/src/tree/tree/mod.rs: Tree::clean_zone, get_dirty_nodes, rewrite_node, insert, remove"]}
{"id": "C86", "title": "The label written by a sync leads to a whole tree, also while the cleaner works", "statement": "When a sync writes its label, the record and allocation tables it leads to hold exactly what was put into them, all their nodes were made durable before the label was written, and writing the label does not panic, whatever zones are being cleaned in the background.", "quantifier": "every history of insertions, removals, flushes, syncs and moves of nodes by the cleaner, every interleaving of the cleaner with the steps of a sync", "why_tests_cant": "Whether the tables can change between the flush and the label depends on who holds the transaction lock at that moment; a test would have to stop a sync half-way while the cleaner runs.", "anchors": ["bfffs-core/src/cleaner.rs: SyncCleaner::clean_now", "bfffs-core/src/database/database.rs: sync_transaction_priv", "bfffs-core/src/idml/idml.rs: advance_transaction, write_label, clean_zone, txg", "bfffs-core/src/tree/tree/mod.rs: serialize, flush, rewrite_node"]}
{"id": "C87", "title": "The client library gets the daemon's answer to what it asked, and only the daemon's user may change anything", "statement": "Every method of the client library returns the result of the operation it stands for. A user other than the daemon's changes nothing and is told EPERM, while listing and looking at status is open to all. A creation or a setting of properties that reports success has set all of them; a disk named by its path is the one whose status shows that path, and an unknown path changes nothing.", "quantifier": "every request, every caller, every state and every behaviour of the controller behind the daemon", "why_tests_cant": "There are thirteen kinds of request, each with its own check of the caller and its own kind of answer; the tests run as one user, so the answers to another user are never looked at.", "anchors": ["bfffs/src/lib.rs: Bfffs::call, fs_create, fs_destroy, fs_mount, fs_set, fs_unmount, pool_clean, pool_fault, pool_attach, pool_status, Device::into_uuid", "bfffs/src/bin/bfffsd/main.rs: process_rpc, handle_client, set", "bfffs-core/src/rpc.rs: Request, Response"]}
{"id": "C88", "title": "Listing data sets recursively gives each one once", "statement": "A listing of a data set gives that data set first and then every data set down to the depth asked for, each once, with its full name and the properties asked for, and none before its parent, however many pages it takes. While data sets are created and destroyed meanwhile it still gives none twice, gives only what existed, and if it ends without error misses none that was there all the time.", "quantifier": "every forest of data sets, every pool and data set name, every depth, every list of properties, every sequence of changes between the requests", "why_tests_cant": "The listing is spread over many requests with resume offsets and a queue of names; tests use a few data sets in one page and change nothing meanwhile.", "anchors": ["bfffs/src/lib.rs: Bfffs::fs_list, call", "bfffs/src/bin/bfffsd/main.rs: process_rpc (FsList, FsStat)", "bfffs-core/src/controller.rs: list_fs, get_prop, strip_pool_name", "bfffs-core/src/database/mod.rs: Forest::readdir"]}
{"id": "C89", "title": "Extended attributes are a map from names to values for every file", "statement": "Getting an attribute gives the value last set for that name in that namespace, or says there is none; its length is the length of that value; a listing gives each name once; removing says whether there was one. This holds across syncs, for names whose hashes collide, and after files are deleted; no stored value is left behind when it is replaced, removed, or its file deleted.", "quantifier": "every sequence of sets, removals, gets, listings, syncs and deletions of files, all names, values and sizes, every hash function", "why_tests_cant": "Colliding names share one bucket, and a value is moved out of the tree only when a sync finds it long; tests cover one collision and seldom sync between two operations.", "anchors": ["bfffs-core/src/fs.rs: setextattr, getextattr, getextattrlen, deleteextattr, listextattr, listextattrlen", "bfffs-core/src/dataset.rs / fs.rs: htable", "bfffs-core/src/fs_tree.rs: ExtAttr, InlineExtAttr, BlobExtAttr, FSValue::flush"]}
{"id": "C90", "title": "The daemon answers the kernel's requests about extended attributes as the protocol asks", "statement": "A request of size zero is told how large the answer is; a buffer too small gets ERANGE and one large enough all of it; a missing attribute gets ENOATTR; the names listed are those of the attributes set, each with the prefix of its namespace, in a form from which they can be read back. Every name is answered without a panic.", "quantifier": "every sequence of requests, all names, values and buffer sizes", "why_tests_cant": "Sizes and answers depend on each other across two requests, and names come from any process; tests use well-formed names.", "anchors": ["bfffs/src/bin/bfffsd/fs.rs: getxattr, setxattr, listxattr, removexattr, split_xattr_name", "bfffs-core/src/fs.rs: listextattr, listextattrlen"]}
{"id": "C91", "title": "Reading a file while the file system is synced", "statement": "A read gives the bytes of the file, and the sync succeeds and leaves the contents as they were, however the steps of reads and of the sync interleave.", "quantifier": "every file with every history, any number of concurrent reads at any offsets, every distribution of the file's records over tree nodes, every interleaving with the flushing of its records", "why_tests_cant": "A read copies references to many buffers and waits for the disk in between; whether a sync falls into such a wait depends on timing that a test does not control.", "anchors": ["bfffs-core/src/fs.rs: read, do_read", "bfffs-core/src/tree/tree/mod.rs: RangeQuery, get_range", "bfffs-core/src/fs_tree.rs: InlineExtent::flush, flush_bt", "bfffs-core/src/database/database.rs: fsread, fswrite"]}
{"id": "C92", "title": "stat tells the truth about an object", "statement": "stat shows the type and device the object was created with and the permissions, owner, group and flags last given to it; the daemon's answer to the kernel says the same, and gives the size and the number of 512-byte blocks in use; the size of a symbolic link is the length of its target.", "quantifier": "every history of creating, linking, removing, renaming, changing attributes, writing, punching and reading, every object", "why_tests_cant": "Each operation rewrites a whole inode, so any of them can drop a field that another set; tests look at the fields the operation is about.", "anchors": ["bfffs-core/src/fs.rs: do_create, do_setattr, setattr, do_getattr, link, rename, write, deallocate", "bfffs/src/bin/bfffsd/fs.rs: do_getattr, setattr"]}
{"id": "C93", "title": "Timestamps show what has happened to an object", "statement": "Any change to what stat shows of an object, other than its access time, sets its change time to a time during the change, so that a program comparing change times notices; change times never go back and never lie in the future. The modification time moves when, and only when, the contents change or a client sets it; the access time when, and only when, the object is read with access times on, or a client sets it. Extended attributes count as a change.", "quantifier": "every history, every clock that does not go back, every object and pair of moments", "why_tests_cant": "A quantification over pairs of moments; tests check the timestamps of the one operation they run, with a clock whose resolution can hide a missing update.", "anchors": ["bfffs-core/src/fs.rs: create_ts_callback, mkdir, link, unlink, rmdir, rename, setattr, do_setattr, write, deallocate, read, readdir, setextattr, deleteextattr"]}
{"id": "C94", "title": "A new hard link is counted", "statement": "After link the file has one link more and a new change time, however the parts of the operation are scheduled.", "quantifier": "every state, every order of the operation's concurrent updates of the file", "why_tests_cant": "Two joined futures read and write the same inode; which comes first depends on the locks other operations hold at that moment.", "anchors": ["bfffs-core/src/fs.rs: link, do_setattr, do_unlink"]}
{"id": "C95", "title": "A mirror whose disks fail", "statement": "Whatever disks fail and are taken out of service, a read of a mirror that succeeds returns for each block what the last successful write to it wrote, unless a write to it has failed since; a read fails only if every disk in service fails; a write that succeeds is on every disk in service, and at least one holds it.", "quantifier": "every number of disks, every sequence of writes, reads and faults, every pattern of failures, every content", "why_tests_cant": "Tests fail one disk once; which disk a read uses depends on a counter shared by all reads, and what a failed write leaves depends on which parts were dropped.", "anchors": ["bfffs-core/src/mirror.rs: Mirror::write_at, writev_at, read_at, ReadAt::poll, fault, first_present_child"]}
{"id": "C96", "title": "Repairing a zone copies the zone", "statement": "A repair of a zone of a mirror that reports success has made the disks being rebuilt equal to those in service on all blocks of the zone; whatever happens nothing else changes; it succeeds if every block can be read from some disk in service.", "quantifier": "every size of zone, every number of disks in every state, every pattern of read errors", "why_tests_cant": "The copying is done in buffers of fixed size by a reader and a writer with their own addresses; tests use zones of a few buffers.", "anchors": ["bfffs-core/src/mirror.rs: Mirror::repair_zone"]}
{"id": "C97", "title": "Everything is synced within a bounded time", "statement": "While the pool is open a sync begins at most about five seconds, plus the time that one flush and one sync take, after any write has finished, whenever clients sync by themselves; the background task syncs at most once in five seconds; and closing the pool loses nothing.", "quantifier": "every history of delays, syncs by clients and running times of syncs and flushes", "why_tests_cant": "Depends on timing: the timer is restarted by flushes' ends, by clients' syncs and by messages that arrive late.", "anchors": ["bfffs-core/src/database/database.rs: Syncer::run, Syncer::kick, Syncer::shutdown, Database::sync_transaction, Database::shutdown"]}
{"id": "C98", "title": "Free space is size less use", "statement": "statvfs reports as free exactly the pool's size less the blocks in use, never more than the size.", "quantifier": "every pool of any number of clusters of RAID devices or single disks of every size, every history of writes, failures, frees and imports", "why_tests_cant": "Whether the zones fit into the reported size depends on the RAID layout and on sizes of disks; tests use a few round sizes.", "anchors": ["bfffs-core/src/fs.rs: Fs::statvfs", "bfffs-core/src/pool.rs: Stats::size, Stats::used", "bfffs-core/src/raid/vdev_raid.rs: VdevRaid::new, zone_limits", "bfffs-core/src/vdev_file.rs: zones, zone_limits"]}
{"id": "C99", "title": "Operations on a tree share its nodes", "statement": "However lookups, changes, flushes, moves by the cleaner and deletions of ranges of one tree are interleaved, with the cache dropping nodes at any moment: each lookup sees a node as it was at some moment during the lookup, no change that has finished is lost, none waits forever for another, and none panics.", "quantifier": "every number and mix of tasks, every interleaving of their steps, every moment at which the cache drops the node", "why_tests_cant": "The node changes owner between cache, tree and tasks by counting handles; the failing interleavings need a thread to be interrupted between two instructions.", "anchors": ["bfffs-core/src/tree/node.rs: IntElem::rlock, TreeReadGuard, TreeWriteGuard::xlock, xlock_nc, drain_xlock", "bfffs-core/src/tree/tree/mod.rs: get_r, xlock_root, flush_leaves, flush_r, rewrite_node, range_delete_purge, write_leaf", "bfffs-core/src/idml/idml.rs: pop, get"]}
{"id": "C100", "title": "Operations on a tree never deadlock", "statement": "However lookups, range queries, insertions, removals, deletions of ranges, flushes and moves by the cleaner of one tree are interleaved: a node that one changes no other sees, two operations never wait for each other, in a circle of any length, and from every moment all of them can still be brought to their end.", "quantifier": "trees of every shape, every number and mix of operations, every interleaving, every choice of children, splits, merges and changes of height on the way, every order in which a lock serves those who wait", "why_tests_cant": "A deadlock needs several operations at several levels at the right moments; range queries hold two nodes at different heights, which tests hardly ever meet together with a merge of just these nodes.", "anchors": ["bfffs-core/src/tree/tree/mod.rs: get_r, get_range_r, insert, remove, fix_int, flush_once, flush_r, flush_leaves, range_delete, rewrite_node, xlock_root, addresses, dump", "bfffs-core/src/tree/node.rs: xlock, xlock_nc, drain_xlock"]}
{"id": "C101", "title": "pool create makes the pool that its arguments describe", "statement": "\"bfffs pool create\" makes exactly the layout that its arguments describe: each named device is used once, in its place, and with the given width and parity; every layout of single disks, mirrors and RAIDs can be described and has one reading. If it makes no pool it ends, and it has not written to any device; it never writes to a device that is not an argument.", "quantifier": "every list of arguments, of any length and any characters, every set of devices of any sizes, and all paths that lead to one device", "why_tests_cant": "The descriptions are a language; the tests have five sentences of it. Refusals and devices that are given twice are not tested at all.", "anchors": ["bfffs/src/pool_create_parser.lalrpop", "bfffs/src/bin/bfffs/pool_create_ast.rs", "bfffs/src/bin/bfffs/main.rs: pool::Create::main, Builder", "bfffs-core/src/raid/mod.rs: create", "bfffs-core/src/mirror.rs: Mirror::create, new", "bfffs-core/src/vdev_block.rs: create"]}
{"id": "C102", "title": "A pool is put together from the disks that carry it", "statement": "After any disks have been tasted, in any order, among them disks of other pools and disks without a label, the pools on offer are those of which a disk was found. Importing one with a disk in every cluster succeeds and gives the pool as it was: every disk in its place, those that missed transactions to be rebuilt, the contents those of the latest committed transaction found; disks of other pools are not touched, and neither order nor timing matters.", "quantifier": "every number of pools of every layout, every set of disks present or missing, every combination of transactions on their labels, every order of tasting and of answers", "why_tests_cant": "The order in which disks are found and answer is not under the control of tests; disks that come back after the pool has changed are not tested.", "anchors": ["bfffs-core/src/database/mod.rs: Manager", "bfffs-core/src/pool.rs: Manager, Pool::open", "bfffs-core/src/cluster.rs: Manager", "bfffs-core/src/raid/mod.rs: Manager, open", "bfffs-core/src/raid/vdev_raid.rs: VdevRaid::open", "bfffs-core/src/raid/null_raid.rs: NullRaid::open", "bfffs-core/src/mirror.rs: Manager, Mirror::open, attach, write_label", "bfffs-core/src/vdev_block.rs: Manager"]}
{"id": "C103", "title": "A flush that fails loses nothing", "statement": "If writing some records of a tree fails while it is flushed, for lack of space or because of an I/O error, the flush reports the failure; everything stored in the tree can still be read, nothing that was on disk is affected, and a later flush in which all writes succeed makes the whole contents durable.", "quantifier": "every tree that arises from any operations, every pattern of failing writes in any number of flushes", "why_tests_cant": "Tests of the flush use a store whose writes succeed; which of the concurrent writes have ended when one fails depends on timing.", "anchors": ["bfffs-core/src/tree/tree/mod.rs: Tree::flush, flush_once, flush_leaves, flush_r, serialize, get", "bfffs-core/src/tree/node.rs: TreePtr, IntElem::rlock"]}
{"id": "C104", "title": "Requests to clean are served", "statement": "Whoever asks for zones to be cleaned is told so after a pass over the zones that began after the request; requests are served in order, however many there are; shutting down waits for those that were made. If a pass fails, only the client who asked for it is concerned.", "quantifier": "every sequence of requests, passes of any outcome, and shutdown, in every order", "why_tests_cant": "The order of requests, passes and the end of the task depends on scheduling, and no test makes a pass fail.", "anchors": ["bfffs-core/src/cleaner.rs: Cleaner::clean, new, run, shutdown", "bfffs-core/src/database/database.rs: Database::clean, shutdown", "bfffs-core/src/types.rs: Error::unhandled"]}
{"id": "C105", "title": "A mounted file system obeys its properties and can be unmounted", "statement": "Whatever a client is told of a mounted data set's access-time updates, record size and mountpoint is what the mounted file system does, also when properties of it or of a data set above it are changed meanwhile. A request to unmount a data set takes out that data set and no other; one that is mounted cannot be mounted again or destroyed; and a change that is refused has no effect.", "quantifier": "every tree of data sets, every property stored at the start, every sequence of changes of properties, mounts, unmounts (through the daemon or past it) and destructions, with failing writes and refusals by the kernel at any point", "why_tests_cant": "Properties live twice, on disk and in the mounted file system, and the mountpoint a third time in the kernel; they part only after certain orders of changes and mounts of related data sets.", "anchors": ["bfffs/src/bin/bfffsd/main.rs: Bfffsd::mount, unmount, set, process_rpc", "bfffs-core/src/controller.rs: set_prop, new_fs, unmount, destroy_fs, get_prop_locked", "bfffs-core/src/fs.rs: Fs::new, set_prop, set_prop_unmounted, get_prop"]}
{"id": "C106", "title": "What is sent between the client and the daemon arrives", "statement": "Every request that the client library sends is read by the daemon as the same request, and every answer by the client as the same answer, whatever names, paths and numbers are in it. Whoever has something changed is told how it went. Data sets can be listed and the state of pools shown however many there are and whatever their names. No bytes that another user sends change anything.", "quantifier": "every request and every answer with every name, path, property, number of data sets and layout of a pool; every sequence of bytes sent to the daemon", "why_tests_cant": "Encodings are tested on a few messages; messages have a length limit that only large pools or many data sets reach.", "anchors": ["bfffs-core/src/rpc.rs: Request, Response, fs::*, pool::*", "bfffs/src/lib.rs: Bfffs::call, fs_list, pool_status, pool_fault, pool_attach", "bfffs/src/bin/bfffsd/main.rs: Bfffsd::handle_client, process_rpc", "bfffs-core/src/types.rs: Error", "bfffs-core/src/property.rs: Property, PropertyName, PropertySource", "bfffs-core/src/vdev.rs: Health, FaultedReason"]}
{"id": "C107", "title": "What the consistency check says", "statement": "The consistency check of a pool neither panics nor complains of a pool that was only changed by the operations of the file system. A pool that passes it is sound: in every tree the nodes have legal sizes, leaves are at one depth, keys are in order without duplicates and each is found by lookups, and recorded transaction ranges enclose what is below; the table of addresses and the table of records are each other's inverses, reference counts included, and the space in use is what records and tables take. The whole check passes only if every part does.", "quantifier": "all histories of operations on a tree with all legal fanouts; all trees, whether or not any operations could have made them; all contents of the two tables", "why_tests_cant": "A checker is tested with a handful of hand-damaged trees; which damages it misses and which healthy trees it rejects concerns all trees.", "anchors": ["bfffs-core/src/tree/tree/mod.rs: Tree::check, check_r", "bfffs-core/src/tree/node.rs: NodeData::check", "bfffs-core/src/idml/idml.rs: IDML::check, check_ridt", "bfffs-core/src/database/database.rs: Database::check"]}
{"id": "C108", "title": "What the commands that list data sets and properties print", "statement": "`bfffs fs get` prints, for each data set given and, if asked, those below it down to the depth asked for, one line for each property asked for that comes from one of the sources asked for, with the columns asked for, in the order of the data sets' names; `bfffs fs list` prints one line for each such data set with the values of the properties asked for, in the order asked for. Both print every data set once. A script can read names and values back from the output, and the property column names the property that was asked for. Any choice of properties can be listed. If one of the data sets cannot be listed the command fails and prints nothing.", "quantifier": "every answer of the daemon, all data sets, properties, sources, columns, orders and depths asked for, all outcomes of the unstable sort", "why_tests_cant": "Tests run the commands on two or three data sets with tame names and the default options.", "anchors": ["bfffs/src/bin/bfffs/main.rs: fs::Get::main, fs::List::main, GetField", "bfffs-core/src/property.rs: Property, PropertyName, PropertySource", "bfffs-core/src/controller.rs: get_prop_locked"]}
{"id": "C109", "title": "What the status of a pool tells", "statement": "`bfffs pool status` shows every disk of the pool once, in the pool's order, with its path and its state, below its mirror and RAID where there is more than one to choose from. From the indentation alone one can tell which disks form a mirror and which mirrors a RAID: pools whose status looks the same are put together the same and in the same state. Different states are written differently. A disk that is missing is named. If identifiers are asked for, those of all devices are shown.", "quantifier": "every status the daemon can send: all numbers of RAIDs, mirrors and disks, all paths and all states, with and without identifiers", "why_tests_cant": "Tests compare the output for two or three layouts; that no two layouts look alike concerns all pairs.", "anchors": ["bfffs/src/bin/bfffs/main.rs: pool::Status::print", "bfffs-core/src/vdev.rs: Health", "bfffs-core/src/mirror.rs: Child::status, Mirror::status"]}
{"id": "C110", "title": "Commands given several properties, data sets or devices", "statement": "`bfffs fs set` gives every data set named exactly the properties written, for all values they may have, and `bfffs fs create` creates a data set with them; if one property cannot be read, nothing is changed. `bfffs pool fault` faults every device named. A command that fails changes nothing. Options of `bfffs fs mount` are obeyed or refused.", "quantifier": "all lists of properties, data sets, devices and options, all property values, every way in which the daemon may answer each request", "why_tests_cant": "Tests set one or two properties with simple values on one data set and do not let the second of several requests fail.", "anchors": ["bfffs/src/bin/bfffs/main.rs: fs::Set, fs::Create, fs::Mount, pool::Fault", "bfffs-core/src/property.rs: FromStr for Property"]}
{"id": "C111", "title": "One daemon for one socket", "statement": "However many daemons are started with the same socket path, and whenever they are killed, at most one of them serves at any time, and clients that open the socket reach that one. After a daemon has ended, however it ended, another one can be started. A daemon that ends removes its socket and its lock file, and doing so does not disturb others.", "quantifier": "any number of daemons, all interleavings of their system calls, crashes at every point", "why_tests_cant": "Tests start one daemon; the interleavings of three daemons with the kernel's file locks are not tried.", "anchors": ["bfffs/src/bin/bfffsd/main.rs: Socket, Drop for Socket, Bfffsd::run, main"]}
