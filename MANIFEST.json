{"claims": [
{"property": "C01", "status": "partial", "theorems": ["C01_lookup_exact", "C01_lookup_exact_aligned", "C01_lookup_nearest", "C01_dense_keys_refuted"], "note": "Proved down to the Judy array of judy.c for every history in which no 57 live keys differ in the last byte only (in particular for 16-byte aligned addresses, and any alignment of at least 5). Refuted without that condition: judy_prv returns the wrong cell. C01_lookup_nearest is the exact behaviour for overlapping registrations."},
{"property": "C02", "status": "proved", "theorems": ["C02_register", "C02_deregister", "C02_newest_visible", "C02_count"], "note": "All histories, all addresses; visibility through lookup under the same density condition as C01."},
{"property": "C03", "status": "proved", "theorems": ["C03_listing", "C03_listing_of_allocator", "C03_null_key_refuted"], "note": "All histories without a record at the null address (registerAllocation rejects it); with one the listing is empty (refuted)."},
{"property": "C04", "status": "proved", "theorems": ["C04_wrong_allocator", "C04_right_allocator", "C04_registry", "C04_right_allocator_throws_refuted"], "note": "The owner always takes the memory back; a DynamicPoolList that coalesces may throw afterwards (witness). Every history of the whole system (any allocators of GlobalModel.kind, HOST, zero-byte pool, AllocationMap over the Judy array), every address."},
{"property": "C05", "status": "partial", "theorems": ["C05_current_size", "C05_allocation_count", "C05_failed_creation_refuted", "C05_slot_pool_refuted", "C05_overridden_refuted"], "note": "Exact for every allocator no other was created on, over all histories including failing calls. Refuted: failed creation leaves the parent charged; an exhausted SlotPool counts the failed request; FixedPool and Monotonic report other numbers."},
{"property": "C06", "status": "partial", "theorems": ["C06_watermark", "C06_watermark_grows", "C06_monotonic_refuted"], "note": "Maximum over the history for every allocator no other was created on; monotone for all. Refuted for Monotonic (reports its capacity)."},
{"property": "C07", "status": "proved", "theorems": ["C07_allocate", "C07_zero_allocate", "C07_zero_deallocate"], "note": ""},
{"property": "C08", "status": "proved", "theorems": ["C08_quickpool_disjoint", "C08_quickpool_defined", "C08_huge_request_refuted"], "note": "Any conforming parent, any history, requests up to limP-2A (all sizes a 64-bit host could serve). C08_huge_request_refuted: for SIZE_MAX-like requests the rounding wraps and two live allocations share an address."},
{"property": "C09", "status": "proved", "theorems": ["C09_quickpool_alignment", "C09_dynpool_alignment", "C09_alignment_not_power_of_two_refuted"], "note": "Needs a power-of-two alignment; the constructor does not check that (refuted for 24)."},
{"property": "C10", "status": "partial", "theorems": ["C10_quickpool_accounting", "C10_quickpool_hwm_upper", "C10_quickpool_hwm_exact_partial", "C10_aligned_hwm_refuted"], "note": "All getters exact. High-water marks are upper bounds always and exact without coalescing; with coalescing the aligned high-water mark is refuted (counts the temporary internal allocation)."},
{"property": "C11", "status": "proved", "theorems": ["C11_quickpool_release", "C11_quickpool_release_all"], "note": ""},
{"property": "C12", "status": "proved", "theorems": ["C12_quickpool_merged"], "note": ""},
{"property": "C13", "status": "proved", "theorems": ["C13_quickpool_hit", "C13_quickpool_miss"], "note": ""},
{"property": "C14", "status": "partial", "theorems": ["C14_deallocate_keeps_others", "C14_terminates_partial", "C14_shipped_heuristics_settle", "C14_blocks_releasable_1_refuted", "C14_percent_50_refuted", "C14_deallocate_terminate_refuted"], "note": "Live data is always preserved. Termination proved for settling heuristics (default, 0, 100, blocks>=2); refuted for blocks_releasable(1) and percentages below 100 (infinite recursion), and deallocate can std::terminate."},
{"property": "C15", "status": "partial", "theorems": ["C15_round_up", "C15_round_up_mod", "C15_round_up_refuted"], "note": "True up to 2^64-A; refuted for every larger size_t."},
{"property": "C16", "status": "proved", "theorems": ["C16_dynpool_disjoint", "C16_dynpool_defined", "C16_dynpool_terminates", "C16_huge_request_refuted", "C16_deallocate_no_throw_refuted", "C16_coalesce_terminate_refuted"], "note": "Requests up to limP - 2*alignment (limP: largest request the parent accepts); above, rounding wraps (refuted). deallocate can throw after freeing, coalesce can terminate (refuted)."},
{"property": "C17", "status": "proved", "theorems": ["C17_dynpool_accounting", "C17_dynpool_merged", "C17_dynpool_hwm_upper", "C17_dynpool_hwm_exact", "C17_aligned_hwm_refuted"], "note": ""},
{"property": "C18", "status": "proved", "theorems": ["C18_dynpool_release", "C18_dynpool_release_all"], "note": ""},
{"property": "C19", "status": "proved", "theorems": ["C19_fixed_pool_slots", "C19_fixed_pool_reuses", "C19_fixed_pool_grows", "C19_fixed_pool_frees", "C19_fixed_pool_freed_slot_available", "C19_fixed_pool_release", "C19_large_request_refuted", "C19_no_objects_refuted", "C19_constructor_refuted"], "note": "Any conforming parent, all histories with requests up to the object size. Refuted: larger requests are served when assertions are off and overlap; zero objects per pool recurses for ever; the noexcept constructor terminates the program when the parent fails."},
{"property": "C20", "status": "partial", "theorems": ["C20_fixed_pool_current_size", "C20_fixed_pool_highwatermark", "C20_fixed_pool_actual_size_partial", "C20_actual_size_after_release_refuted", "C20_actual_size_refuted"], "note": "Current size and high watermark exact for all histories. Actual size refuted: release does not lower it, and it adds the number of bitmap ints instead of bytes; the exact formula is proved for histories without release."},
{"property": "C21", "status": "partial", "theorems": ["C21_record_pool_exclusive", "C21_record_pool_reuses", "C21_record_pool_grows", "C21_record_pool_accepts", "C21_record_pool_rejects_partial", "C21_accepts_foreign_refuted"], "note": "Free list threaded through client-writable memory. Slots of at least 8 bytes. Refuted: interior addresses are accepted by deallocate; a failing malloc is undefined behaviour (C21_record_pool_grows)."},
{"property": "C22", "status": "partial", "theorems": ["C22_size_limiter_limit", "C22_size_limiter_refuses", "C22_size_limiter_forwards_partial", "C22_huge_request_refuted", "C22_parent_failure_refuted"], "note": "Limit and refusal proved for requests below 2^64-limit, over any parent. Refuted: requests near 2^64 wrap the total; a parent failure leaves bytes charged, so requests that fit are refused later."},
{"property": "C23", "status": "partial", "theorems": ["C23_monotonic_disjoint", "C23_monotonic_refuses_partial", "C23_refused_request_refuted", "C23_wrap_refuted"], "note": "Disjointness and containment proved while the requested sizes add up to less than 2^64. Refuted: a refused request consumes capacity; beyond 2^64 the counter wraps and memory is handed out twice."},
{"property": "C24", "status": "partial", "theorems": ["C24_slot_pool_disjoint", "C24_slot_pool_exhausted_partial", "C24_other_size_refuted", "C24_parent_failure_refuted"], "note": "Disjointness for all histories; n simultaneous allocations for requests of one size. Refuted: a freed slot never serves another size, a slot is lost when the parent fails."},
{"property": "C25", "status": "proved", "theorems": ["C25_mixed_pool_disjoint", "C25_mixed_pool_classes", "C25_mixed_pool_others", "C25_mixed_pool_returns", "C25_multiplier_1_refuted", "C25_class_wrap_refuted"], "note": "Any conforming parent, all histories; multiplier at least 2 and size classes that do not wrap (mcfg_ok). Refuted: multiplier 1 never finishes constructing, a class wrapping to 0 divides by zero."},
{"property": "C26", "status": "proved", "theorems": ["C26_aligned_allocator", "C26_aligned_allocator_returns", "C26_huge_request_refuted"], "note": "Requests up to limP-(A+7); beyond, the total wraps (refuted)."},
{"property": "C27", "status": "partial", "theorems": ["C27_unique", "C27_lookups_agree", "C27_ids_never_reused", "C27_make_allocator", "C27_duplicate_name", "C27_unique_refuted"], "note": "Every sequence of registry calls, any resource names, factories and failing constructors, provided created resources are harmless (RegistrySpec). Refuted without: makeResource(\"HOST::0\") rebinds \"HOS\", after which a second allocator \"HOS\" can be made."},
{"property": "C28", "status": "partial", "theorems": ["C28_add_alias", "C28_remove_alias", "C28_never_rebound", "C28_defined", "C28_remove_resource_name_refuted", "C28_device_rebound_refuted", "C28_dangling_entry_refuted"], "note": "Same histories. Refuted: removeAlias of an uncreated resource name dereferences end(); getAllocator(\"DEVICE\") rebinds \"DEVICE::0\"; a failed makeResource leaves a dangling entry."},
{"property": "C29", "status": "proved", "theorems": ["C29_reallocate", "C29_reallocate_with", "C29_reallocate_null"], "note": "Every state of the whole system, any memory contents, realloc in place or moving. Synchronous versions on host memory."},
{"property": "C30", "status": "partial", "theorems": ["C30_failed_reallocate", "C30_rejected", "C30_interior", "C30_unknown", "C30_others_survive", "C30_failed_dynamic", "C30_realloc_failure_refuted", "C30_zero_bytes_refuted", "C30_dynamic_refuted"], "note": "Holds for every failure except three, refuted: on a DynamicPoolList whose deallocate throws the new allocation is leaked and the old one gone; a failing ::realloc loses the record of a HOST allocation; reallocate(p, 0) returns p before allocate(0) can fail."},
{"property": "C31", "status": "partial", "theorems": ["C31_reallocate_statistics", "C31_host_refuted"], "note": "Exact for every allocator but HOST, for which ::realloc bypasses the statistics (refuted)."},
{"property": "C32", "status": "partial", "theorems": ["C32_copy", "C32_copy_rejected", "C32_copy_unknown", "C32_source_bound_refuted", "C32_overlap_refuted"], "note": "Destination bound, contents and frame hold; the source range is not checked and overlapping ranges are undefined (refuted). Interior pointers under the density condition of C01."},
{"property": "C33", "status": "proved", "theorems": ["C33_memset", "C33_memset_unknown"], "note": "Interior pointers under the density condition of C01."},
{"property": "C34", "status": "partial", "theorems": ["C34_move", "C34_move_same", "C34_move_interior", "C34_move_dynamic", "C34_move_dynamic_refuted"], "note": "A move that throws has no effect unless the owner is a DynamicPoolList that coalesces: then the allocation may have moved all the same (refuted, and exactly what can happen is proved)."},
{"property": "C35", "status": "proved", "theorems": ["C35_owner", "C35_other"], "note": "C35_other under the density condition of C01."},
{"property": "C36", "status": "proved", "theorems": ["C36_composed_disjoint", "C36_composed_defined", "C36_idle"], "note": "Any number of allocators of the kinds in GlobalModel.kind, created at any time on any earlier one; requests within the limits computed by climit. Monotonic, SlotPool and a DynamicPoolList that coalesces only as leaves. Deallocation never throws except by the latter."},
{"property": "C37", "status": "proved", "theorems": ["C37_linearizable", "C37_any_steps", "C37_memory", "C37_exclusive", "C37_progress", "C37_shared_pool_refuted", "C37_wrong_owner_refuted"], "note": "Calls of allocate and deallocate on one thread-safe allocator, every schedule, sequentially consistent memory. Refuted beyond that: two thread-safe allocators over one pool; deallocation through the wrong allocator at the same time."},
{"property": "C38", "status": "partial", "theorems": ["C38_new", "C38_shared", "C38_lookup", "C38_free", "C38_disjoint", "C38_names_apart", "C38_actual", "C38_nothing_lost", "C38_larger_request_refuted", "C38_nul_name_refuted", "C38_huge_request_refuted", "C38_tiny_segment_refuted"], "note": "Operations are atomic (the segment mutex); creating and mapping the segment: C75. Requests and names shorter than 2^62, no NUL in names, segment of at least 120 bytes; refuted without, and refuted: a second allocation of a name with a larger size returns the smaller block."},
{"property": "C39", "status": "partial", "theorems": ["C39_disjoint", "C39_inside_partial", "C39_current_size", "C39_refused", "C39_served", "C39_cuda_outside_refuted", "C39_wrap_refuted", "C39_truncated_refuted", "C39_after_refusal_refuted", "C39_reset_race_refuted", "C39_fitting_refused_refuted"], "note": "All interleavings of any number of threads, fewer than 2^32 bytes asked for since the last reset; inside the arena under HIP only. Refuted: CUDA does not check, the 32-bit counter wraps, requests are truncated, refused requests stay counted, a reset races with the check."},
{"property": "C40", "status": "partial", "theorems": ["C40_insert", "C40_find", "C40_find_or_before", "C40_erase", "C40_clear", "C40_size", "C40_next", "C40_walk", "C40_find_or_before_refuted", "C40_erase_absent_refuted", "C40_insert_pair_refuted", "C40_assigned_iterator_refuted"], "note": "Refinement of the Judy array and MemoryMap to a finite map with iterators. Refuted: findOrBefore for dense keys, erase of an absent key whose low bytes are zero is undefined, insert(pair) reports the opposite, assigning to the iterator that moved last leaves a stale cursor."},
{"property": "C41", "status": "proved", "theorems": ["C41_contains", "C41_overlaps", "C41_live", "C41_unknown"], "note": "C41_live and C41_unknown under the density condition of C01."},
{"property": "C42", "status": "partial", "theorems": ["C42_never_returns_refuted", "C42_empty_refuted", "C42_single_partial"], "note": "Refuted: never returns for two or more records, undefined for none. The quotient is not modelled."},
{"property": "C43", "status": "partial", "theorems": ["C43_room", "C43_wrap_refuted"], "note": "Proved while sizeof(T)*n < 2^64; refuted beyond."},
{"property": "C44", "status": "proved", "theorems": ["C44_names_distinct", "C44_names_repeat_refuted"], "note": "Distinct for the first 2^64 allocations; the size_t counter then wraps."},
{"property": "C45", "status": "proved", "theorems": ["C45_round_trip", "C45_documented", "C45_known_names", "C45_types_named", "C45_names_differ"], "note": ""},
{"property": "C46", "status": "partial", "theorems": ["C46_live", "C46_apart", "C46_allocate", "C46_deallocate", "C46_destructor", "C46_stale_entry_refuted", "C46_descriptor_leak_refuted", "C46_counter_refuted", "C46_zero_refuted"], "note": "All histories and sizes over any operating system on which removing an existing file succeeds; refuted when it fails. Further refuted: descriptors leak on failure, the int counter overflows, zero bytes always fail."},
{"property": "C47", "status": "proved", "theorems": ["C47_dynpool_hit", "C47_dynpool_miss"], "note": ""},
{"property": "C48", "status": "partial", "theorems": ["C48_make", "C48_ids", "C48_by_id", "C48_by_name_host", "C48_by_name_device_partial", "C48_destroy", "C48_prefix_refuted", "C48_65th_refuted", "C48_long_name_refuted", "C48_destroy_refuted", "C48_absent"], "note": "Any initial contents of the array. Refuted: on the device prefixes match, the 65th allocator and 64-character names overrun, uninitialised entries are destroyed."},
{"property": "C49", "status": "partial", "theorems": ["C49_block_pool_exclusive", "C49_block_pool_first_fit", "C49_block_pool_grows", "C49_block_pool_capacity", "C49_block_pool_accepts", "C49_block_pool_rejects_partial", "C49_block_pool_sizes", "C49_block_pool_destroyed", "C49_double_free_refuted", "C49_malloc_fails_refuted"], "note": "All histories in which malloc had room when the pool had to grow. Refuted: an object returned twice is accepted; a failing malloc is not noticed."},
{"property": "C50", "status": "partial", "theorems": ["C50_find", "C50_builtin", "C50_nothing_else", "C50_disabled", "C50_own_partial", "C50_all_pairs_refuted", "C50_replace_refuted"], "note": "All build configurations and registrations. Refuted: no copy between different kinds of devices; registrations for a pair already taken are ignored."},
{"property": "C51", "status": "partial", "theorems": ["C51_teardown_defined", "C51_teardown_returns_all", "C51_live_survives_partial", "C51_monotonic_live_refuted", "C51_slot_pool_live_refuted", "C51_advisor_leaks_refuted"], "note": "All trees over HOST and all histories. Refuted: MonotonicAllocationStrategy and SlotPool give back memory still in use; memory of a throwing advice operation is lost. Missing for the full claim: those cases only."},
{"property": "C52", "status": "partial", "theorems": ["C52_disjoint", "C52_defined", "C52_covers_tracked", "C52_limiter_starves_refuted", "C52_parent_statistics_refuted"], "note": "Memory safety for every declared size. Refuted: limits and the statistics of parents drift when size 0 is declared."},
{"property": "C53", "status": "partial", "theorems": ["C53_listed", "C53_right_kind", "C53_one_kind", "C53_types", "C53_names_differ", "C53_device_id", "C53_listed_id", "C53_host_registry", "C53_get_listed", "C53_fine_device_refuted", "C53_device_zero_refuted", "C53_only_names_refuted", "C53_parse", "C53_number", "C53_builds_refuted"], "note": "All build configurations. Refuted: device names with a granularity and \"DEVICE::0\" can stand for another device; names of no kind are accepted."},
{"property": "C54", "status": "partial", "theorems": ["C54_allocate", "C54_deallocate", "C54_placement", "C54_current_partial", "C54_parent", "C54_current_refuted", "C54_later_resource_refuted", "C54_absent_device_refuted", "C54_answers"], "note": "All vendor behaviours and histories. Refuted: after a failure the current device is another than the program chose; a resource for an absent device gives memory of another one."},
{"property": "C55", "status": "partial", "theorems": ["C55_disjoint", "C55_granted_partial", "C55_reverse_order_partial", "C55_refused_sticks", "C55_noop_unique", "C55_after_refusal_refuted", "C55_wrap_refuted", "C55_noop_wrap_refuted", "C55_kind"], "note": "All histories up to counter wrap. Refuted: after a refused request nothing works any more; wrapping requests give overlapping memory."},
{"property": "C56", "status": "partial", "theorems": ["C56_live_mapped_partial", "C56_defined_partial", "C56_rest_stays_mapped", "C56_leak_refuted", "C56_neighbour_refuted", "C56_failure_refuted", "C56_unknown_refuted"], "note": "At most 4096 live allocations below 4 GiB: disjoint, mapped, calls defined. Refuted: deallocation unmaps the wrong length (leak; neighbour unmapped); failure of mmap and unknown pointers are not reported."},
{"property": "C57", "status": "partial", "theorems": ["C57_replay_partial", "C57_log_partial", "C57_live", "C57_room", "C57_file_room", "C57_log_utf8_refuted", "C57_memset_refuted", "C57_failed_reallocate_refuted", "C57_other_thread_refuted", "C57_coalesce_refuted", "C57_base_refuted", "C57_class_refuted", "C57_statistics_refuted"], "note": "All programs as in ReplaySpec.program, any library that answers or throws, first and later runs; C57_log_partial goes from the calls of the event builders through the bytes of the JSON file to the replay. Refuted outside: memset and named allocations, throwing reallocate, other threads or coalescing during reallocate, pools named ..._base, advisors for device -1 and unknown classes, statistics of a file run before, allocators whose names are not UTF-8. Coalescing heuristics of pools are not replayed."},
{"property": "C58", "status": "partial", "theorems": ["C58_log2", "C58_buckets", "C58_totals", "C58_zero_refuted", "C58_reallocate_refuted"], "note": "All sizes but 0 and all histories of allocations and deallocations. Refuted: size 0, and deallocation of reallocated blocks."},
{"property": "C59", "status": "partial", "theorems": ["C59_waiting", "C59_copy", "C59_copy_refused", "C59_memset", "C59_memset_refused", "C59_prefetch", "C59_reallocate_partial", "C59_reallocate_refuted", "C59_leak_refuted", "C59_openmp_refuted", "C59_reallocate_refused"], "note": "All builds, programs, schedules of streams, placements and failures. Refuted: reallocation on a stream loses contents when the old memory is reused at once, and memory when it fails; OpenMP copies ignore errors."},
{"property": "C60", "status": "partial", "theorems": ["C60_level", "C60_written", "C60_lost_refuted", "C60_locale_refuted", "C60_failures"], "note": "All programs and failures. Refuted: after one failed write everything later is lost; non-ASCII level names are undefined."},
{"property": "C61", "status": "partial", "theorems": ["C61_distinct", "C61_found", "C61_keeps", "C61_file", "C61_complete", "C61_starts", "C61_end", "C61_unreadable_refuted", "C61_two_hosts_refuted", "C61_needless_refuted", "C61_retry_refuted", "C61_end_refuted"], "note": "All file systems of readable files. Refuted: unreadable files are truncated, two hosts may share a log, missing directories stop programs without a log, failures stick, the end of a program with a log is undefined."},
{"property": "C62", "status": "partial", "theorems": ["C62_out_of_memory", "C62_named_refuted", "C62_pointer_refuted"], "note": "All strategies. Refuted: named allocations and unknown pointers."},
{"property": "C63", "status": "partial", "theorems": ["C63_placed", "C63_known", "C63_memalign", "C63_allocate", "C63_move", "C63_masks", "C63_nodes", "C63_constructor", "C63_unaligned", "C63_leak_refuted", "C63_owner_refuted", "C63_move_back_refuted", "C63_offset_move_refuted", "C63_neighbour_refuted", "C63_bound_after_free_refuted", "C63_device_move_refuted", "C63_missing_node_refuted"], "note": "All builds, trees, histories and failures where memory comes on pages of its own and base pointers are moved. Refuted: failures leak, moves keep the owner, moving back does nothing, offset pointers and shared pages, memory given back stays bound, device nodes, nodes that do not exist."},
{"property": "C64", "status": "partial", "theorems": ["C64_hints", "C64_advisor", "C64_prefetcher", "C64_sycl_prefetcher_refuted", "C64_not_prefetched_refuted", "C64_accessing_refuted", "C64_any_operation_refuted"], "note": "All builds, stacks and failures. Refuted: SYCL prefetchers are undefined, prefetching is skipped silently, accessing allocators are ignored without CUDA, any operation is accepted."},
{"property": "C65", "status": "partial", "theorems": ["C65_quick_live", "C65_dyn_live", "C65_quick_idle", "C65_dyn_idle", "C65_quick_use_after_free", "C65_quick_undisturbed", "C65_dyn_undisturbed", "C65_tower", "C65_quick_transparent", "C65_dyn_transparent", "C65_device", "C65_parents", "C65_small_alignment_refuted", "C65_returned_poisoned_refuted"], "note": "All parents, configurations and histories; that idle memory is poisoned needs an alignment that is a multiple of eight. Refuted: smaller alignments, and memory returned to parents that make no sanitizer calls."},
{"property": "C66", "status": "partial", "theorems": ["C66_same_as_cpp_partial", "C66_no_leak", "C66_equal", "C66_names", "C66_copy_refuted", "C66_throw_refuted", "C66_copies_refuted", "C66_overwrite_refuted", "C66_equal_refuted", "C66_names_refuted", "C66_destructor"], "note": "All programs of the wrapped calls but the two copies, any library. Refuted: copies go the wrong way, exceptions end the program or leak, careless handles, equality of handles to one allocator, names with trailing blanks or NUL."},
{"property": "C67", "status": "partial", "theorems": ["C67_inside", "C67_apart", "C67_filled", "C67_round_trip", "C67_wrap_refuted", "C67_negative_refuted", "C67_rank_refuted"], "note": "All element sizes, ranks and extents whose size in bytes is below 2^64. Refuted: beyond, negative extents, wrong number of extents."},
{"property": "C68", "status": "partial", "theorems": ["C68_allocate_partial", "C68_shortage_partial", "C68_other_failure", "C68_deallocate", "C68_null", "C68_foreign_partial", "C68_history", "C68_history_free", "C68_parent", "C68_pool", "C68_queue", "C68_queue_apart", "C68_offered", "C68_queue_offered_partial", "C68_leak_refuted", "C68_device_refuted", "C68_grain_refuted", "C68_shortage_refuted", "C68_empty_refuted", "C68_foreign_refuted", "C68_queue_refuted", "C68_num_devices_partial", "C68_num_devices_refuted", "C68_num_platforms_refuted"], "note": "All leaves, sizes, vendors and histories. Refuted: failing hipMemAdvise or hipGetDevice, coarse managed memory without coherence, lack of memory with SYCL and OpenMP, requests for no bytes, SYCL devices of further platforms."},
{"property": "C69", "status": "partial", "theorems": ["C69_sound_partial", "C69_complete", "C69_platform_partial", "C69_own_partial", "C69_hip_refuted", "C69_omp_refuted", "C69_missed_refuted", "C69_own_refuted", "C69_numa_refuted"], "note": "All stacks, machines and builds. Refuted: HIP device memory from the host, host memory from OpenMP devices, memory that is reachable and not reported, FILE and NO_OP, NumaPolicy for device nodes."},
{"property": "C70", "status": "partial", "theorems": ["C70_string", "C70_value", "C70_event", "C70_build", "C70_file_partial", "C70_invalid", "C70_prefix_partial", "C70_torn", "C70_quote_refuted", "C70_forge_refuted", "C70_inject_refuted", "C70_null_refuted", "C70_unopened_refuted", "C70_again_refuted", "C70_ask_refuted", "C70_reader_refuted", "C70_writer", "C70_growing_refuted", "C70_resume_refuted"], "note": "All events, values, byte strings and cuts where names of allocations are plain. Refuted: other names of named allocations, typed records before any other, asking twice or on a store for writing, inserting into a store for reading."},
{"property": "C71", "status": "partial", "theorems": ["C71_verdict", "C71_equal_partial", "C71_runs", "C71_addresses", "C71_lines_partial", "C71_lines_refuted", "C71_equal_refuted", "C71_failed_refuted"], "note": "All pairs of programs of C57: what the answer means exactly, and that equal logs are replayed alike. Refuted: logs of different length (equal in one order, an endless loop in the other), a reallocation that threw."},
{"property": "C72", "status": "partial", "theorems": ["C72_stored_partial", "C72_same_partial", "C72_invalid", "C72_buffer_partial", "C72_lines_partial", "C72_quote_refuted", "C72_double_refuted", "C72_inject_refuted", "C72_overflow_refuted", "C72_read_refuted", "C72_int_refuted", "C72_comma_refuted", "C72_kinds_refuted", "C72_typed_refuted"], "note": "All sequences of events without single quotes and with names of allocations of at most 200 bytes; lines for events made of words with one number. Refuted: quotes, statements in names, long names, rows that are no events, numbers beyond int, several numbers, other strings, typed events."},
{"property": "C73", "status": "proved", "theorems": ["C73_alloc_touches", "C73_free_touches", "C73_release_touches", "C73_coalesce_touches", "C73_make_touches", "C73_run_touches", "C73_alloc_depends", "C73_free_depends", "C73_release_depends", "C73_coalesce_depends"], "note": "All stacks of all modelled strategies, all states (no invariant is assumed), calls that return or throw."},
{"property": "C74", "status": "partial", "theorems": ["C74_locks", "C74_one", "C74_memory_partial", "C74_apart", "C74_map", "C74_names", "C74_progress", "C74_readers", "C74_host_refuted", "C74_safe_refuted", "C74_zero_refuted", "C74_zero_free_refuted", "C74_count_refuted", "C74_release_refuted", "C74_names_refuted", "C74_fetch_refuted", "C74_default_refuted", "C74_make_refuted", "C74_records_refuted"], "note": "Any number of threads, all programs and interleavings: no deadlock; no race in the use of one thread-safe allocator, of allocators with nothing in common, of the map. Refuted: the counters of a common resource, zero bytes, queries, release, getAllocator against makeAllocator, first uses, listing the records."},
{"property": "C75", "status": "partial", "theorems": ["C75_ready", "C75_history", "C75_defined", "C75_together", "C75_opens", "C75_leaves", "C75_abandoned", "C75_size", "C75_locked", "C75_killed_refuted", "C75_leave_refuted", "C75_asked_refuted", "C75_killed_inside_refuted", "C75_leftover_refuted"], "note": "Any number of processes, all interleavings of system calls and atomic accesses, failures and kills anywhere: whoever is in has a segment set up once; without faults everybody gets in and the name goes with the last. Refuted: a maker that dies or fails blocks all, leaving takes the name from those who stay, the size asked for is ignored, the mutex is not robust."},
{"property": "C76", "status": "partial", "theorems": ["C76_switch", "C76_recorded", "C76_plain", "C76_symbols_partial", "C76_what", "C76_none_refuted", "C76_numbers_refuted", "C76_offset_refuted", "C76_nomem_refuted", "C76_units_refuted"], "note": "The switch latches at the first question of each unit; without symbols the printed form equals the specified sheet for all stacks; with symbols up to ten frames. Refuted: \"none\" switches on, hexadecimal numbering sticks, offsets cut to 32 bits, no report without memory, unit switches disagree."},
{"property": "C77", "status": "partial", "theorems": ["C77_first", "C77_errors", "C77_communicator", "C77_there", "C77_quiet", "C77_logging_partial", "C77_directory", "C77_missed", "C77_looks_refuted", "C77_fails_refuted", "C77_early_refuted", "C77_finalized_refuted", "C77_given_refuted", "C77_alone"], "note": "All call sequences and all interleavings of any number of processes. The start-up is proved to end if the directory is there, if nothing is logged, or if all have looked before it is made; refuted otherwise (a rank that finds the new directory skips the barrier). Also refuted: early umpire::initialize, rank after finalize, communicator of later calls."},
{"property": "C78", "status": "partial", "theorems": ["C78_usage", "C78_hwm", "C78_hwm_none", "C78_device", "C78_error", "C78_unreadable_refuted", "C78_hwm_refuted", "C78_device_refuted", "C78_name_refuted", "C78_named_refuted", "C78_pointer_refuted", "C78_sign", "C78_second", "C78_first_refuted"], "note": "Proved for all texts with the numbers the kernel writes, all existing devices, all failing unnamed allocations. Refuted: missing or short files are undefined behaviour, a device that does not exist, unchecked cast by name, named allocations and unknown pointers."},
{"property": "C79", "status": "partial", "theorems": ["C79_sessions_partial", "C79_recompile", "C79_heuristic_refuted", "C79_stopped_refuted", "C79_changed_refuted", "C79_pool_kept_refuted", "C79_statistics_refuted", "C79_statistics"], "note": "Proved for all programs C57 covers, all histories of sessions that were not both forced to compile and told to use a pool, all options. What is missing is refuted: untracked pools with a heuristic, a stopped compile, a changed log, --recompile with --use-pool, statistics after --recompile."},
{"property": "C80", "status": "partial", "theorems": ["C80_print_partial", "C80_print_all_partial", "C80_allocator_partial", "C80_twice", "C80_null_refuted"], "note": "Proved for all histories without a record at the null address. What is missing is refuted: with such a record nothing is printed."},
{"property": "C81", "status": "partial", "theorems": ["C81_tower", "C81_made", "C81_kind_partial", "C81_unified", "C81_vendor", "C81_device", "C81_current", "C81_queue", "C81_grain", "C81_given", "C81_default_partial", "C81_scope", "C81_prefetch", "C81_communicator", "C81_omp_partial", "C81_omp_two", "C81_noop_refuted", "C81_id_refuted", "C81_omp_refuted", "C81_default_refuted", "C81_size_refuted", "C81_sycl_prefetch_refuted", "C81_size_partial", "C81_error"], "note": "Proved for all builds, machines, names and towers. What is missing is refuted: NO_OP has no kind, most resources have no device id (so OpenMP copies with SHARED read a value never written), default traits and sizes are those of device 0."},
{"property": "C82", "status": "partial", "theorems": ["C82_rounding", "C82_range", "C82_pools", "C82_never", "C82_enough_partial", "C82_less_partial", "C82_all", "C82_all_dynamic", "C82_hundred", "C82_exact_refuted", "C82_loops_refuted"], "note": "Proved for all percentages and sizes up to one part in 2^22 and a byte. What is missing is refuted: the exact percentage is false in both directions."},
{"property": "C83", "status": "partial", "theorems": ["C83_counts_partial", "C83_host", "C83_recovered_refuted", "C83_shim", "C83_shim_refuted"], "note": "For all trees of allocators and histories: counters = what is out + refused requests; HOST exact while malloc refuses nothing. Refuted: a failure a pool recovers from stays counted; under a NamingShim the size never falls."},
{"property": "C84", "status": "partial", "theorems": ["C84_pattern", "C84_read", "C84_picture_partial", "C84_hole_refuted", "C84_coalesce_refuted", "C84_overlay_refuted", "C84_far_refuted", "C84_empty_refuted", "C84_name_refuted", "C84_traces_refuted", "C84_number", "C84_import", "C84_import_throws", "C84_together"], "note": "For all records: reads exactly the allocations listed and paints their bytes plus single bytes between two. Refuted: that byte, coalescing, common origin, far apart, empty, names with line breaks, traces of this version."},
{"property": "C85", "status": "partial", "theorems": ["C85_transparent", "C85_statistics", "C85_registry", "C85_register", "C85_deregister", "C85_owner", "C85_lookup", "C85_no_strategy", "C85_count_refuted", "C85_free_refuted", "C85_other_address_refuted", "C85_refusal_refuted", "C85_own_refuted", "C85_null_event_refuted", "C85_part_refuted"], "note": "For all histories: allocators, statistics and frees are as without registrations; registry is the union; newest registration first; exact lookup for disjoint memory. Refuted: records vs count, freeing through an allocator, records naming another address, refusals, withdrawing own allocations, null strategy with events, registrations inside an allocation."},
{"property": "C86", "status": "partial", "theorems": ["C86_memory", "C86_destroy", "C86_make", "C86_host_id", "C86_host_name", "C86_view", "C86_device_id", "C86_device_name", "C86_kept", "C86_abandoned", "C86_repair", "C86_absent_id", "C86_absent_name", "C86_absent_device", "C86_no_size", "C86_array_refuted", "C86_lost_refuted", "C86_remade_refuted", "C86_copy_refuted", "C86_handle_refuted"], "note": "For all histories: what is in use, destruction gives back exactly the memory and counters and never throws, makings succeed, lookups on the host; on the device until the first destruction; which array the device keeps afterwards and what sets it right. Refuted: arrays are leaked, device allocators made after a destruction are not seen by the device, memory lost when the counter fails, failed copies, destroy() of a handle."},
{"property": "C87", "status": "partial", "theorems": ["C87_summary_partial", "C87_version", "C87_leak_hidden_refuted", "C87_leak_wrap_refuted", "C87_reallocations_refuted", "C87_no_version_refuted"], "note": "For all programs that can be replayed: every printed number as a count over the calls, the version for all logs. Refuted: leaked is the number of live allocations (null deallocations hide leaks, or it wraps), reallocations are counted once, logs without a version."},
{"property": "C88", "status": "partial", "theorems": ["C88_log_partial", "C88_replay_partial", "C88_live", "C88_owned", "C88_order", "C88_instant_refuted"], "note": "For all threads and schedules: the log is a program that can be replayed, per thread complete and in order, and tells what is live when no thread is inside of a call. Missing: reallocations, during which allocations of other threads are dropped (C57_other_thread_refuted). Refuted: that the log tells what is in use at any time."},
{"property": "C89", "status": "partial", "theorems": ["C89_alone", "C89_alone_read", "C89_early", "C89_whole", "C89_settled", "C89_ended", "C89_twice_refuted", "C89_torn_refuted", "C89_name_refuted"], "note": "For all runs: a log used by the process that opened it alone is that of a program that does not fork (so if forks come first, or children exec or _exit); a log of several written in whole lines has the events of each in order, those held at a fork again, and each once if none are held. Refuted: events twice, torn lines, the name of the log."},
{"property": "C90", "status": "partial", "theorems": ["C90_parse", "C90_token", "C90_end", "C90_total", "C90_plain", "C90_unique", "C90_event", "C90_file", "C90_strict_refuted", "C90_real_refuted"], "note": "For all files: scanner, parser, conversion and reader accept exactly the texts of the grammar with its values (both directions), and end. Refuted: a line that the library could not have written is refused (null bytes, categories, wrapped numbers); numbers that do not fit are undefined."}
]}
