import json
C = []
def c(pid, status, theorems, note=""):
    C.append({"property": pid, "status": status, "theorems": theorems, "note": note})

c("C01", "proved", ["C01_lookup_last_value"])
c("C02", "proved", ["C02_lookup_candidate"])
c("C03", "proved", ["C03_update_one_key"])
c("C04", "partial", ["C04_delete_one_key_partial", "C36_lost_delete_refuted"], "Removal fails when another Finalize overlaps the delete of a node-256 leaf; proved otherwise.")
c("C05", "proved", ["C05_prepare_update"])
c("C06", "proved", ["C06_prepare_delete"])
c("C07", "proved", ["C07_abort_update"])
c("C08", "partial", ["C08_abort_delete_partial", "C08_abort_root_merge_refuted"], "False when the delete merges the root node with its child (swapped arguments, delete.go:344); proved otherwise.")
c("C09", "proved", ["C09_leaf_words"])
c("C10", "proved", ["C10_node_words", "C10_all_builds"])
c("C11", "proved", ["C11_prefix_storage"])
c("C12", "partial", ["C12_no_panic_partial", "C12_no_panic_short_keys", "C12_recycle_refuted"], "False when a node of exactly 258 slots is recycled (allocator.go:181); proved otherwise, and for keys of at most 9 bytes without exception.")
c("C13", "partial", ["C13_len_partial", "C13_len_restarts", "C48_sequential_map", "C36_lost_delete_refuted"], "Exact when no delete overlaps another Finalize and the tree was not loaded from a state file; false otherwise.")
c("C14", "partial", ["C14_iteration_in_order_partial"], "Every tree except those with more than 256 keys whose root node ends exactly at the end of block 0 and whose last child is a node; storeResumePosition then reads behind the block.")
c("C15", "partial", ["C15_iteration_ends_partial", "C15_iteration_restarts_refuted"], "Proved for at most 256 keys, and for any number when the greatest child of the root is a leaf; false in general.")
c("C16", "partial", ["C16_prefix_iteration_partial", "C16_prefix_count_partial", "C16_prefix_ignored_refuted"], "Exact except that one key without the prefix may be returned when no key has it, and for the end of an iteration over more than 256 values.")
c("C17", "partial", ["C17_min_key_partial", "C17_min_key_misses_refuted", "C16_prefix_ignored_refuted"], "Exact unless no key has the prefix, or the tree contains an emptied node-256; false in those cases.")
c("C18", "partial", ["C18_max_key_partial", "C18_max_key_misses_refuted", "C16_prefix_ignored_refuted"], "As C17.")
c("C19", "proved", ["C19_count"])
c("C20", "partial", ["C20_statistics_partial", "C20_overcount_refuted"], "Lower bound proved; equality is false, nodes are counted again after each inner child but the last (C88 says exactly how often).")
c("C21", "proved", ["C21_live_memory", "C21_new_node"])
c("C22", "partial", ["C22_recycled_partial", "C22_leak_refuted"], "False for a node that a delete merges with its child (delete.go:285-299); proved for every other node.")
c("C23", "proved", ["C23_same_index"], "The block compression is any codec that round-trips; the tree is stopped with no operation open.")
c("C24", "partial", ["C24_len_refuted", "C24_negative_len_refuted", "C24_len_after", "C24_flushed_partial"], "False of the code: counters that were not flushed are lost; proved when FlushStats was called on every allocator.")
c("C25", "partial", ["C25_truncated_refuted", "C25_missing_blocks", "C25_allocator_partial", "C25_block_partial"], "False of the code: the end of the file is accepted between two lines; proved for files cut inside an allocator section or a compressed block.")
c("C26", "partial", ["C26_panics_refuted", "C26_written_partial"], "False of the code; proved for all parts of files written by WriteState.")
c("C27", "partial", ["C27_block_lost_refuted", "C27_waiting_partial", "C27_last_block"], "False of the code while the goroutine has handed out a block and not yet published it; proved otherwise, and that only that block can be missing.")
c("C28", "proved", ["C28_one_holder"])
c("C29", "partial", ["C29_one_administrator_partial", "C29_concurrent_len_refuted", "C29_start_during_stop_refuted"], "Proved when at most one goroutine calls Stop, Start and Len; false otherwise.")
c("C30", "partial", ["C30_len_restarts_refuted", "C30_len_keeps_running_partial"], "False of the code: Len ends with Start.")
c("C31", "proved", ["C31_mutual_exclusion", "C31_uninterrupted"])
c("C32", "partial", ["C32_unchanged_partial", "C32_shared_word_refuted"], "Proved for the node, and for a parent with another lock word; false for a parent that shares the node's lock word.")
c("C33", "proved", ["C33_not_reused", "C33_contents"], "In the epoch model; the rules its writers follow are listed in Epoch.v.")
c("C34", "partial", ["C34_unprotected_refuted", "C34_alone_partial"], "False of the code: MinKey and MaxKey make no reservation.")
c("C35", "partial", ["C35_serialisable_partial", "C36_lost_delete_refuted"], "Exact except for keys whose acknowledged delete overlapped another Finalize, for which it is false. Interleaving at the granularity of API calls.")
c("C36", "partial", ["C36_lost_delete_refuted", "C04_delete_one_key_partial"], "False of the code; proved for deletes that overlap no other Finalize.")
c("C37", "partial", ["C37_unchanged_partial", "C37_node_changed_refuted", "C37_parent_changed_refuted"], "Proved when the three lock words differ; false when they coincide.")
c("C38", "partial", ["C38_deadlock_refuted", "C38_never_returns", "C38_returns_partial", "C38_order"], "False of the code: exactly when more than i/2+33 blocks exist, i the number of the first failing call of Write; proved otherwise.")
c("C39", "partial", ["C39_nil_block_refuted", "C39_started_partial", "C39_blocks_kept"], "False of the code until the goroutine has created block 0; proved afterwards.")
c("C40", "partial", ["C40_iterator_snapshot_partial", "C40_iterator_repeats_refuted"], "Proved for at most 256 keys with the prefix at the first call, whatever happens to the tree later; false in general.")
c("C41", "partial", ["C41_emptied_node_refuted", "C12_no_panic_partial"], "False of the code: an emptied node-256 stays in the tree. No panic if all keys ever used are prefix-free (C12, which excludes only nodes of 258 slots).")
c("C42", "partial", ["C42_inside_block_partial", "C42_long_prefix_refuted"], "Proved for keys shorter than 2000000 bytes; false for common parts of 2^21 bytes.")
c("C43", "proved", ["C43_key_encodings"])
c("C44", "proved", ["C44_calls_return", "C44_queries_return"])
c("C45", "proved", ["C45_reservations", "C45_idle"])
c("C46", "partial", ["C46_empty_key_refuted", "C02_lookup_candidate"], "False for the empty key when the root is a leaf; all other keys proved.")
c("C47", "partial", ["C47_far_candidate_refuted", "C47_branches_partial"], "False of the code: search skips prefixes without comparing them. Proved for every byte at which two stored keys that begin like the candidate part.")
c("C48", "proved", ["C48_sequential_map"])
c("C49", "partial", ["C49_stopped_partial", "C49_stop_returns_early_refuted"], "Proved when at most one goroutine calls Stop, Start and Len; a second Stop returns early.")
c("C50", "proved", ["C50_get_returns"])
FP = "Shown for histories without deletes of the kind of C58/C59 (shared lock words) and with fewer than 2^31 calls during one attempt; Finalize and Abort are single steps (C67 and C68 show what happens when they are interrupted)."
c("C51", "proved", ["C51_update_replaces_reported"])
c("C52", "partial", ["C52_delete_removes_reported_partial", "C36_lost_delete_refuted"], "Fails when another Finalize overlaps the delete of a node-256 leaf; proved otherwise.")
c("C53", "partial", ["C53_interrupted_calls_go_on_partial", "C53_single_steps_partial", "C53_short_keys_partial"], FP)
c("C54", "partial", ["C54_answers_were_true_partial"], FP)
c("C55", "partial", ["C55_map_partial", "C55_update_partial", "C55_delete_partial", "C58_acknowledged_insert_lost_refuted"], FP + " False otherwise (C58).")
c("C56", "partial", ["C56_len_partial", "C56_live_memory_partial", "C56_reservations_partial", "C56_idle_partial"], FP)
c("C57", "partial", ["C57_update_partial", "C57_delete_partial"], FP)
c("C58", "partial", ["C58_acknowledged_insert_lost_refuted", "C55_map_partial"], "False of the code: the check of a lock word shared by a node and its child misses a change. Proved when no merge of nodes involves such a pair.")
c("C59", "partial", ["C59_live_node_recycled_refuted", "C56_live_memory_partial"], "False of the code, as C58, for a node and its grandchild.")
c("C60", "proved", ["C60_small_trees", "C60_small_trees_hold"], "Finalize and Abort are single steps, as the property says; C67 refutes it when they are interrupted.")
c("C61", "proved", ["C61_lookup_wait_free", "C61_lookup_wait_free_steps"], "All histories of interrupted calls, with no condition; Finalize and Abort are single steps in the first theorem and interrupted in the second.")
c("C62", "proved", ["C62_lookup_only_reads", "C62_lookup_only_reads_steps"], "As C61.")
c("C63", "partial", ["C63_attempts_bounded", "C63_attempts_bounded_steps", "C63_repeats_have_a_cause_partial"], "The bound holds of all histories. The cause of a repetition: as C53, histories without deletes whose lock words clash and with fewer than 2^31 Finalize, Abort and FlushStats calls during one attempt; C60 names histories that meet this.")
c("C64", "partial", ["C64_alone_calls_return_partial"], "Histories as in C53.")

c("C65", "proved", ["C65_values_were_stored", "C65_next_returns"], "The calls of Next are single steps.")
c("C66", "partial", ["C66_stable_keys_returned_partial", "C66_in_order_partial", "C66_delete_hides_key_refuted", "C66_insert_hides_key_refuted"], "Proved for iterators over the whole tree while no delete is acknowledged; false with deletes, and for iterators with a prefix also without them.")

c("C67", "partial", ["C67_acknowledged_insert_lost_refuted", "C67_untouched_key_lost_refuted", "C55_map_partial", "C60_small_trees_hold"], "False of the code: a walk accepts an unchanged odd generation. Proved when Finalize and Abort are not interrupted (C55, C60).")
c("C68", "partial", ["C68_uninterrupted_delete_lost_refuted", "C55_delete_partial"], "False of the code: deletes from 256-slot nodes take no lock. Proved when Finalize is not interrupted (C55).")
c("C69", "proved", ["C69_unlocks_succeed", "C69_exclusive", "C69_nothing_stays_locked"], "All histories in which no delete that merges a node with a child at address 0 is aborted; there is no such child in an undamaged tree.")
c("C70", "proved", ["C70_len_is_acknowledged"], "Histories as in C69.")
c("C71", "proved", ["C71_finalize_wait_free"], "All histories, with no condition.")

c("C72", "partial", ["C72_interrupted_iterations_go_on_partial", "C72_small_trees"], FP + " In small trees (C60) there is no further condition.")
c("C73", "partial", ["C73_count_partial", "C73_count_bounds_partial"], FP)
c("C74", "partial", ["C74_next_partial", "C74_nothing_found_partial", "C74_next_fetched_partial"], FP + " Completeness only for the first search of an iteration; C66 shows that later ones may miss keys.")
c("C75", "partial", ["C75_count_at_no_moment_refuted", "C73_count_bounds_partial"], "False of the code: Count is not a snapshot. C73 says what holds.")
c("C76", "partial", ["C76_as_lookups_partial", "C76_others_partial", "C76_answers_were_true_partial"], FP)

ONE = "Missing: two Finalizes at a time (false: C67, C68); deletes that take one lock word for two nodes (C58); nodes of 258 slots (C12); 2^31 writes or more."
c("C77", "partial", ["C77_one_finalize_at_a_time_partial", "C77_short_keys_partial"], ONE + " The second theorem: keys of at most 9 bytes, for which no node has 258 slots.")
c("C78", "partial", ["C78_goes_on_partial"], ONE)
c("C79", "proved", ["C79_single_writer", "C79_single_writer_long_keys_partial"], "Keys of at most 9 bytes, as the property says; FlushStats and restarts happen while no Finalize is in progress; fewer than 2^31 writes. For longer keys without nodes of 258 slots.")

c("C80", "proved", ["C80_root", "C80_leaves"], "Admin is one step.")
c("C81", "partial", ["C81_no_panic_partial", "C81_node_panics_refuted"], "False of the code: node <id> with the number of a word that points into a block that does not exist panics. Proved for all other commands.")
c("C82", "partial", ["C82_node_partial", "C82_full_node_refuted"], "False of the code for nodes with 256 slots, whose number does not fit into an int; proved for all others.")
c("C83", "proved", ["C83_blocks"])
c("C84", "partial", ["C84_two_admins_refuted", "C84_stopped_refuted", "C84_alone_partial"], "False of the code: two calls at once, or one call on a stopped tree, wait for ever. Proved for a call that nobody interrupts when all allocators are free.")

c("C85", "partial", ["C85_iterations_beside_finalize_partial", "C85_short_keys_partial"], ONE + " Also, a prefix may give a single value that shares only its first byte (C16), and for a Next after the first of an iteration nothing is said about keys it may miss (C66).")
c("C86", "partial", ["C86_goes_on_partial"], ONE + " A Next may fail only if some block is used beyond its first 4096 words.")
c("C87", "partial", ["C87_single_writer_iterations_partial", "C87_long_keys_partial"], "Missing: C16 for prefixes; keys missed by a Next after the first of an iteration (C66); Next may fail if some block is used beyond its first 4096 words (C14). Keys of at most 9 bytes, or no nodes of 258 slots; FlushStats and restarts while no Finalize is in progress; fewer than 2^31 writes.")
c("C88", "proved", ["C88_statistics_exact"], "What C20 gets wrong is described exactly: one more visit for each inner child that is not the last child.")
c("C89", "proved", ["C89_debug_search"], "In the empty tree it prints the unused first slot, once or more often; what it prints there is not described.")

with open("/verif/MANIFEST.json", "w") as f:
    f.write('{"claims":[\n' + ",\n".join(json.dumps(x) for x in C) + "\n]}\n")
print(len(C))
