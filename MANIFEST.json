{"claims":[
{"property": "C01", "status": "proved", "theorems": ["C01_lookup_last_value"], "note": ""},
{"property": "C02", "status": "proved", "theorems": ["C02_lookup_candidate"], "note": ""},
{"property": "C03", "status": "proved", "theorems": ["C03_update_one_key"], "note": ""},
{"property": "C04", "status": "partial", "theorems": ["C04_delete_one_key_partial", "C36_lost_delete_refuted"], "note": "Removal fails when another Finalize overlaps the delete of a node-256 leaf; proved otherwise."},
{"property": "C05", "status": "proved", "theorems": ["C05_prepare_update"], "note": ""},
{"property": "C06", "status": "proved", "theorems": ["C06_prepare_delete"], "note": ""},
{"property": "C07", "status": "proved", "theorems": ["C07_abort_update"], "note": ""},
{"property": "C08", "status": "partial", "theorems": ["C08_abort_delete_partial", "C08_abort_root_merge_refuted"], "note": "False when the delete merges the root node with its child (swapped arguments, delete.go:344); proved otherwise."},
{"property": "C09", "status": "proved", "theorems": ["C09_leaf_words"], "note": ""},
{"property": "C10", "status": "proved", "theorems": ["C10_node_words", "C10_all_builds"], "note": ""},
{"property": "C11", "status": "proved", "theorems": ["C11_prefix_storage"], "note": ""},
{"property": "C12", "status": "partial", "theorems": ["C12_no_panic_partial", "C12_no_panic_short_keys", "C12_recycle_refuted"], "note": "False when a node of exactly 258 slots is recycled (allocator.go:181); proved otherwise, and for keys of at most 9 bytes without exception."},
{"property": "C13", "status": "partial", "theorems": ["C13_len_partial", "C13_len_restarts", "C48_sequential_map", "C36_lost_delete_refuted"], "note": "Exact when no delete overlaps another Finalize and the tree was not loaded from a state file; false otherwise."},
{"property": "C14", "status": "partial", "theorems": ["C14_iteration_in_order_partial"], "note": "Every tree except those with more than 256 keys whose root node ends exactly at the end of block 0 and whose last child is a node; storeResumePosition then reads behind the block."},
{"property": "C15", "status": "partial", "theorems": ["C15_iteration_ends_partial", "C15_iteration_restarts_refuted"], "note": "Proved for at most 256 keys, and for any number when the greatest child of the root is a leaf; false in general."},
{"property": "C16", "status": "partial", "theorems": ["C16_prefix_iteration_partial", "C16_prefix_count_partial", "C16_prefix_ignored_refuted"], "note": "Exact except that one key without the prefix may be returned when no key has it, and for the end of an iteration over more than 256 values."},
{"property": "C17", "status": "partial", "theorems": ["C17_min_key_partial", "C17_min_key_misses_refuted", "C16_prefix_ignored_refuted"], "note": "Exact unless no key has the prefix, or the tree contains an emptied node-256; false in those cases."},
{"property": "C18", "status": "partial", "theorems": ["C18_max_key_partial", "C18_max_key_misses_refuted", "C16_prefix_ignored_refuted"], "note": "As C17."},
{"property": "C19", "status": "proved", "theorems": ["C19_count"], "note": ""},
{"property": "C20", "status": "partial", "theorems": ["C20_statistics_partial", "C20_overcount_refuted"], "note": "Lower bound proved; equality is false, nodes are counted again after each inner child but the last (C88 says exactly how often)."},
{"property": "C21", "status": "proved", "theorems": ["C21_live_memory", "C21_new_node"], "note": ""},
{"property": "C22", "status": "partial", "theorems": ["C22_recycled_partial", "C22_leak_refuted"], "note": "False for a node that a delete merges with its child (delete.go:285-299); proved for every other node."},
{"property": "C23", "status": "proved", "theorems": ["C23_same_index"], "note": "The block compression is any codec that round-trips; the tree is stopped with no operation open."},
{"property": "C24", "status": "partial", "theorems": ["C24_len_refuted", "C24_negative_len_refuted", "C24_len_after", "C24_flushed_partial"], "note": "False of the code: counters that were not flushed are lost; proved when FlushStats was called on every allocator."},
{"property": "C25", "status": "partial", "theorems": ["C25_truncated_refuted", "C25_missing_blocks", "C25_allocator_partial", "C25_block_partial"], "note": "False of the code: the end of the file is accepted between two lines; proved for files cut inside an allocator section or a compressed block."},
{"property": "C26", "status": "partial", "theorems": ["C26_panics_refuted", "C26_written_partial"], "note": "False of the code; proved for all parts of files written by WriteState."},
{"property": "C27", "status": "partial", "theorems": ["C27_block_lost_refuted", "C27_waiting_partial", "C27_last_block"], "note": "False of the code while the goroutine has handed out a block and not yet published it; proved otherwise, and that only that block can be missing."},
{"property": "C28", "status": "proved", "theorems": ["C28_one_holder"], "note": ""},
{"property": "C29", "status": "partial", "theorems": ["C29_one_administrator_partial", "C29_concurrent_len_refuted", "C29_start_during_stop_refuted"], "note": "Proved when at most one goroutine calls Stop, Start and Len; false otherwise."},
{"property": "C30", "status": "partial", "theorems": ["C30_len_restarts_refuted", "C30_len_keeps_running_partial"], "note": "False of the code: Len ends with Start."},
{"property": "C31", "status": "proved", "theorems": ["C31_mutual_exclusion", "C31_uninterrupted"], "note": ""},
{"property": "C32", "status": "partial", "theorems": ["C32_unchanged_partial", "C32_shared_word_refuted"], "note": "Proved for the node, and for a parent with another lock word; false for a parent that shares the node's lock word."},
{"property": "C33", "status": "proved", "theorems": ["C33_not_reused", "C33_contents"], "note": "In the epoch model; the rules its writers follow are listed in Epoch.v."},
{"property": "C34", "status": "partial", "theorems": ["C34_unprotected_refuted", "C34_alone_partial"], "note": "False of the code: MinKey and MaxKey make no reservation."},
{"property": "C35", "status": "partial", "theorems": ["C35_serialisable_partial", "C36_lost_delete_refuted"], "note": "Exact except for keys whose acknowledged delete overlapped another Finalize, for which it is false. Interleaving at the granularity of API calls."},
{"property": "C36", "status": "partial", "theorems": ["C36_lost_delete_refuted", "C04_delete_one_key_partial"], "note": "False of the code; proved for deletes that overlap no other Finalize."},
{"property": "C37", "status": "partial", "theorems": ["C37_unchanged_partial", "C37_node_changed_refuted", "C37_parent_changed_refuted"], "note": "Proved when the three lock words differ; false when they coincide."},
{"property": "C38", "status": "partial", "theorems": ["C38_deadlock_refuted", "C38_never_returns", "C38_returns_partial", "C38_order"], "note": "False of the code: exactly when more than i/2+33 blocks exist, i the number of the first failing call of Write; proved otherwise."},
{"property": "C39", "status": "partial", "theorems": ["C39_nil_block_refuted", "C39_started_partial", "C39_blocks_kept"], "note": "False of the code until the goroutine has created block 0; proved afterwards."},
{"property": "C40", "status": "partial", "theorems": ["C40_iterator_snapshot_partial", "C40_iterator_repeats_refuted"], "note": "Proved for at most 256 keys with the prefix at the first call, whatever happens to the tree later; false in general."},
{"property": "C41", "status": "partial", "theorems": ["C41_emptied_node_refuted", "C12_no_panic_partial"], "note": "False of the code: an emptied node-256 stays in the tree. No panic if all keys ever used are prefix-free (C12, which excludes only nodes of 258 slots)."},
{"property": "C42", "status": "partial", "theorems": ["C42_inside_block_partial", "C42_long_prefix_refuted"], "note": "Proved for keys shorter than 2000000 bytes; false for common parts of 2^21 bytes."},
{"property": "C43", "status": "proved", "theorems": ["C43_key_encodings"], "note": ""},
{"property": "C44", "status": "proved", "theorems": ["C44_calls_return", "C44_queries_return"], "note": ""},
{"property": "C45", "status": "proved", "theorems": ["C45_reservations", "C45_idle"], "note": ""},
{"property": "C46", "status": "partial", "theorems": ["C46_empty_key_refuted", "C02_lookup_candidate"], "note": "False for the empty key when the root is a leaf; all other keys proved."},
{"property": "C47", "status": "partial", "theorems": ["C47_far_candidate_refuted", "C47_branches_partial"], "note": "False of the code: search skips prefixes without comparing them. Proved for every byte at which two stored keys that begin like the candidate part."},
{"property": "C48", "status": "proved", "theorems": ["C48_sequential_map"], "note": ""},
{"property": "C49", "status": "partial", "theorems": ["C49_stopped_partial", "C49_stop_returns_early_refuted"], "note": "Proved when at most one goroutine calls Stop, Start and Len; a second Stop returns early."},
{"property": "C50", "status": "proved", "theorems": ["C50_get_returns"], "note": ""},
{"property": "C51", "status": "proved", "theorems": ["C51_update_replaces_reported"], "note": ""},
{"property": "C52", "status": "partial", "theorems": ["C52_delete_removes_reported_partial", "C36_lost_delete_refuted"], "note": "Fails when another Finalize overlaps the delete of a node-256 leaf; proved otherwise."},
{"property": "C53", "status": "partial", "theorems": ["C53_interrupted_calls_go_on_partial", "C53_single_steps_partial", "C53_short_keys_partial"], "note": "Shown for histories without deletes of the kind of C58/C59 (shared lock words) and with fewer than 2^31 calls during one attempt; Finalize and Abort are single steps (C67 and C68 show what happens when they are interrupted)."},
{"property": "C54", "status": "partial", "theorems": ["C54_answers_were_true_partial"], "note": "Shown for histories without deletes of the kind of C58/C59 (shared lock words) and with fewer than 2^31 calls during one attempt; Finalize and Abort are single steps (C67 and C68 show what happens when they are interrupted)."},
{"property": "C55", "status": "partial", "theorems": ["C55_map_partial", "C55_update_partial", "C55_delete_partial", "C58_acknowledged_insert_lost_refuted"], "note": "Shown for histories without deletes of the kind of C58/C59 (shared lock words) and with fewer than 2^31 calls during one attempt; Finalize and Abort are single steps (C67 and C68 show what happens when they are interrupted). False otherwise (C58)."},
{"property": "C56", "status": "partial", "theorems": ["C56_len_partial", "C56_live_memory_partial", "C56_reservations_partial", "C56_idle_partial"], "note": "Shown for histories without deletes of the kind of C58/C59 (shared lock words) and with fewer than 2^31 calls during one attempt; Finalize and Abort are single steps (C67 and C68 show what happens when they are interrupted)."},
{"property": "C57", "status": "partial", "theorems": ["C57_update_partial", "C57_delete_partial"], "note": "Shown for histories without deletes of the kind of C58/C59 (shared lock words) and with fewer than 2^31 calls during one attempt; Finalize and Abort are single steps (C67 and C68 show what happens when they are interrupted)."},
{"property": "C58", "status": "partial", "theorems": ["C58_acknowledged_insert_lost_refuted", "C55_map_partial"], "note": "False of the code: the check of a lock word shared by a node and its child misses a change. Proved when no merge of nodes involves such a pair."},
{"property": "C59", "status": "partial", "theorems": ["C59_live_node_recycled_refuted", "C56_live_memory_partial"], "note": "False of the code, as C58, for a node and its grandchild."},
{"property": "C60", "status": "proved", "theorems": ["C60_small_trees", "C60_small_trees_hold"], "note": "Finalize and Abort are single steps, as the property says; C67 refutes it when they are interrupted."},
{"property": "C61", "status": "proved", "theorems": ["C61_lookup_wait_free", "C61_lookup_wait_free_steps"], "note": "All histories of interrupted calls, with no condition; Finalize and Abort are single steps in the first theorem and interrupted in the second."},
{"property": "C62", "status": "proved", "theorems": ["C62_lookup_only_reads", "C62_lookup_only_reads_steps"], "note": "As C61."},
{"property": "C63", "status": "partial", "theorems": ["C63_attempts_bounded", "C63_attempts_bounded_steps", "C63_repeats_have_a_cause_partial"], "note": "The bound holds of all histories. The cause of a repetition: as C53, histories without deletes whose lock words clash and with fewer than 2^31 Finalize, Abort and FlushStats calls during one attempt; C60 names histories that meet this."},
{"property": "C64", "status": "partial", "theorems": ["C64_alone_calls_return_partial"], "note": "Histories as in C53."},
{"property": "C65", "status": "proved", "theorems": ["C65_values_were_stored", "C65_next_returns"], "note": "The calls of Next are single steps."},
{"property": "C66", "status": "partial", "theorems": ["C66_stable_keys_returned_partial", "C66_in_order_partial", "C66_delete_hides_key_refuted", "C66_insert_hides_key_refuted"], "note": "Proved for iterators over the whole tree while no delete is acknowledged; false with deletes, and for iterators with a prefix also without them."},
{"property": "C67", "status": "partial", "theorems": ["C67_acknowledged_insert_lost_refuted", "C67_untouched_key_lost_refuted", "C55_map_partial", "C60_small_trees_hold"], "note": "False of the code: a walk accepts an unchanged odd generation. Proved when Finalize and Abort are not interrupted (C55, C60)."},
{"property": "C68", "status": "partial", "theorems": ["C68_uninterrupted_delete_lost_refuted", "C55_delete_partial"], "note": "False of the code: deletes from 256-slot nodes take no lock. Proved when Finalize is not interrupted (C55)."},
{"property": "C69", "status": "proved", "theorems": ["C69_unlocks_succeed", "C69_exclusive", "C69_nothing_stays_locked"], "note": "All histories in which no delete that merges a node with a child at address 0 is aborted; there is no such child in an undamaged tree."},
{"property": "C70", "status": "proved", "theorems": ["C70_len_is_acknowledged"], "note": "Histories as in C69."},
{"property": "C71", "status": "proved", "theorems": ["C71_finalize_wait_free"], "note": "All histories, with no condition."},
{"property": "C72", "status": "partial", "theorems": ["C72_interrupted_iterations_go_on_partial", "C72_small_trees"], "note": "Shown for histories without deletes of the kind of C58/C59 (shared lock words) and with fewer than 2^31 calls during one attempt; Finalize and Abort are single steps (C67 and C68 show what happens when they are interrupted). In small trees (C60) there is no further condition."},
{"property": "C73", "status": "partial", "theorems": ["C73_count_partial", "C73_count_bounds_partial"], "note": "Shown for histories without deletes of the kind of C58/C59 (shared lock words) and with fewer than 2^31 calls during one attempt; Finalize and Abort are single steps (C67 and C68 show what happens when they are interrupted)."},
{"property": "C74", "status": "partial", "theorems": ["C74_next_partial", "C74_nothing_found_partial", "C74_next_fetched_partial"], "note": "Shown for histories without deletes of the kind of C58/C59 (shared lock words) and with fewer than 2^31 calls during one attempt; Finalize and Abort are single steps (C67 and C68 show what happens when they are interrupted). Completeness only for the first search of an iteration; C66 shows that later ones may miss keys."},
{"property": "C75", "status": "partial", "theorems": ["C75_count_at_no_moment_refuted", "C73_count_bounds_partial"], "note": "False of the code: Count is not a snapshot. C73 says what holds."},
{"property": "C76", "status": "partial", "theorems": ["C76_as_lookups_partial", "C76_others_partial", "C76_answers_were_true_partial"], "note": "Shown for histories without deletes of the kind of C58/C59 (shared lock words) and with fewer than 2^31 calls during one attempt; Finalize and Abort are single steps (C67 and C68 show what happens when they are interrupted)."},
{"property": "C77", "status": "partial", "theorems": ["C77_one_finalize_at_a_time_partial", "C77_short_keys_partial"], "note": "Missing: two Finalizes at a time (false: C67, C68); deletes that take one lock word for two nodes (C58); nodes of 258 slots (C12); 2^31 writes or more. The second theorem: keys of at most 9 bytes, for which no node has 258 slots."},
{"property": "C78", "status": "partial", "theorems": ["C78_goes_on_partial"], "note": "Missing: two Finalizes at a time (false: C67, C68); deletes that take one lock word for two nodes (C58); nodes of 258 slots (C12); 2^31 writes or more."},
{"property": "C79", "status": "proved", "theorems": ["C79_single_writer", "C79_single_writer_long_keys_partial"], "note": "Keys of at most 9 bytes, as the property says; FlushStats and restarts happen while no Finalize is in progress; fewer than 2^31 writes. For longer keys without nodes of 258 slots."},
{"property": "C80", "status": "proved", "theorems": ["C80_root", "C80_leaves"], "note": "Admin is one step."},
{"property": "C81", "status": "partial", "theorems": ["C81_no_panic_partial", "C81_node_panics_refuted"], "note": "False of the code: node <id> with the number of a word that points into a block that does not exist panics. Proved for all other commands."},
{"property": "C82", "status": "partial", "theorems": ["C82_node_partial", "C82_full_node_refuted"], "note": "False of the code for nodes with 256 slots, whose number does not fit into an int; proved for all others."},
{"property": "C83", "status": "proved", "theorems": ["C83_blocks"], "note": ""},
{"property": "C84", "status": "partial", "theorems": ["C84_two_admins_refuted", "C84_stopped_refuted", "C84_alone_partial"], "note": "False of the code: two calls at once, or one call on a stopped tree, wait for ever. Proved for a call that nobody interrupts when all allocators are free."},
{"property": "C85", "status": "partial", "theorems": ["C85_iterations_beside_finalize_partial", "C85_short_keys_partial"], "note": "Missing: two Finalizes at a time (false: C67, C68); deletes that take one lock word for two nodes (C58); nodes of 258 slots (C12); 2^31 writes or more. Also, a prefix may give a single value that shares only its first byte (C16), and for a Next after the first of an iteration nothing is said about keys it may miss (C66)."},
{"property": "C86", "status": "partial", "theorems": ["C86_goes_on_partial"], "note": "Missing: two Finalizes at a time (false: C67, C68); deletes that take one lock word for two nodes (C58); nodes of 258 slots (C12); 2^31 writes or more. A Next may fail only if some block is used beyond its first 4096 words."},
{"property": "C87", "status": "partial", "theorems": ["C87_single_writer_iterations_partial", "C87_long_keys_partial"], "note": "Missing: C16 for prefixes; keys missed by a Next after the first of an iteration (C66); Next may fail if some block is used beyond its first 4096 words (C14). Keys of at most 9 bytes, or no nodes of 258 slots; FlushStats and restarts while no Finalize is in progress; fewer than 2^31 writes."},
{"property": "C88", "status": "proved", "theorems": ["C88_statistics_exact"], "note": "What C20 gets wrong is described exactly: one more visit for each inner child that is not the last child."},
{"property": "C89", "status": "proved", "theorems": ["C89_debug_search"], "note": "In the empty tree it prints the unused first slot, once or more often; what it prints there is not described."}
]}
