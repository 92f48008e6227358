{"id": "C01", "title": "Pointer lookup finds exactly the allocation that contains the address", "statement": "After any sequence of registrations and deregistrations of allocations that do not overlap each other, looking an address up (getSize / getAllocator(ptr) / findAllocationRecord / hasAllocator) succeeds exactly when the address lies inside some currently registered allocation, and then returns that allocation's record; any other address is reported as unknown.", "quantifier": "for every history of register/deregister events that keeps live allocations pairwise disjoint, every address of the 64-bit space", "why_tests_cant": "Lookup is a nearest-key search followed by a bounds check; its correctness depends on the relative position of every live key, so tests only see a handful of layouts out of an unbounded set.", "anchors": ["src/umpire/util/AllocationMap.cpp: AllocationMap::insert/find/findRecord/doFindRecord/remove/contains", "src/umpire/util/MemoryMap.inl: doFindOrBefore, insert, erase", "src/umpire/ResourceManager.cpp: findAllocationRecord, hasAllocator, getSize"]}
{"id": "C02", "title": "Re-registered addresses behave as a stack and nothing else is disturbed", "statement": "Registering a second record at an address that already has one hides the older record; deregistering returns the newest record for that address and re-exposes the previous one; records at all other addresses, and the number of live records reported, are exactly what the event history dictates; deregistering an address with no record fails and changes nothing.", "quantifier": "for every finite sequence of register/deregister calls on arbitrary addresses and sizes", "why_tests_cant": "The single/multi record representation switches shape at 1<->2 entries and at 0; only an inductive argument covers every interleaving of pushes and pops over all addresses.", "anchors": ["src/umpire/util/AllocationMap.cpp: RecordList::push_back/pop_back, AllocationMap::insert/remove/size", "src/umpire/util/AllocationMap.hpp"]}
{"id": "C03", "title": "Iterating the allocation map visits every live record exactly once", "statement": "Walking the map of live allocations from begin to end terminates and yields each live record exactly once, in increasing address order and newest first for equal addresses, so allocator record listings and leak reports (get_allocator_records, get_leaked_allocations) are complete and duplicate free.", "quantifier": "for every reachable content of the map", "why_tests_cant": "Iteration is a two-level walk whose outer step re-seeks in the index; exhaustiveness for all contents is not observable from sampled contents.", "anchors": ["src/umpire/util/AllocationMap.cpp: ConstIterator::operator++/operator*/operator==, RecordList::ConstIterator", "src/umpire/Umpire.cpp: get_allocator_records, get_leaked_allocations"]}
{"id": "C04", "title": "Deallocating with the wrong allocator is rejected without side effects", "statement": "Calling deallocate on an allocator with a pointer that was obtained from a different allocator throws, and afterwards the pointer is still registered with its original size, name and owner, and the size, count and high-watermark of every allocator are unchanged.", "quantifier": "for every reachable system state, every pair of distinct tracked allocators, every live pointer", "why_tests_cant": "The code removes the record first and re-inserts it on mismatch; atomicity must hold for every state (including stacked records), not for the one state a test sets up.", "anchors": ["src/umpire/strategy/mixins/Inspector.cpp: deregisterAllocation", "src/umpire/Allocator.inl: do_deallocate"]}
{"id": "C05", "title": "Per-allocator statistics equal the live allocations", "statement": "For a tracked allocator, getCurrentSize is the sum of the sizes requested for its live allocations and getAllocationCount is their number, after every sequence of allocate/deallocate calls on any set of allocators (successful or failing).", "quantifier": "for every history of allocate/deallocate calls over any set of allocators, including failing calls", "why_tests_cant": "Drift accumulates over histories; a test checks a few prefixes, not that no history drifts.", "anchors": ["src/umpire/strategy/mixins/Inspector.cpp: registerAllocation, deregisterAllocation", "src/umpire/Allocator.inl: do_allocate, do_deallocate", "src/umpire/strategy/AllocationStrategy.hpp: m_current_size, m_allocation_count"]}
{"id": "C06", "title": "High watermark is the maximum over the whole history", "statement": "getHighWatermark of a tracked allocator always equals the maximum value getCurrentSize has ever had since creation; it never decreases and is never below the current size.", "quantifier": "for every history of allocate/deallocate calls", "why_tests_cant": "A maximum over an unbounded history is only established by induction on that history.", "anchors": ["src/umpire/strategy/mixins/Inspector.cpp: registerAllocation", "src/umpire/strategy/AllocationStrategy.cpp: allocate_internal, getHighWatermark"]}
{"id": "C07", "title": "Zero-byte allocations are unique, real and never reach the strategy", "statement": "allocate(0) returns a pointer that is distinct from every other live pointer, is recorded with size zero, and deallocating it succeeds without the underlying strategy ever being asked to deallocate it; deallocate(nullptr) is a no-op.", "quantifier": "for every interleaving of zero-byte and ordinary allocations and deallocations", "why_tests_cant": "Recognition of null allocations is by address range over a growing list of internal slabs; collisions would only appear for particular histories.", "anchors": ["src/umpire/strategy/mixins/AllocateNull.cpp: allocateNull, deallocateNull", "src/umpire/Allocator.inl: do_allocate, do_deallocate", "src/umpire/strategy/FixedPool.cpp: pointerIsFromPool"]}
{"id": "C08", "title": "QuickPool: live allocations never overlap and lie in pool memory", "statement": "At every moment all live allocations handed out by a QuickPool are pairwise disjoint byte ranges of at least the requested size, and each lies entirely inside one block currently held from the parent allocator.", "quantifier": "for every history of allocate/deallocate/release/coalesce calls, every parent behaviour (any placement, any failures), every block-size configuration", "why_tests_cant": "Overlap is the classical silent allocator bug and depends on split/merge history; the space of histories is infinite.", "anchors": ["src/umpire/strategy/QuickPool.cpp: allocate, deallocate, release, do_coalesce", "src/umpire/strategy/mixins/AlignedAllocation.inl"]}
{"id": "C09", "title": "QuickPool: every returned pointer honours the configured alignment", "statement": "Every pointer returned by a QuickPool or DynamicPoolList is a multiple of the pool's alignment, no matter how the parent places its blocks.", "quantifier": "for every power-of-two alignment, every parent placement, every allocation history", "why_tests_cant": "Alignment is preserved through split/merge chains of arbitrary length over arbitrary base addresses.", "anchors": ["src/umpire/strategy/mixins/AlignedAllocation.inl: aligned_round_up, align_create", "src/umpire/strategy/QuickPool.cpp: allocate", "src/umpire/strategy/DynamicSizePool.hpp: allocate"]}
{"id": "C10", "title": "QuickPool: size accounting is exact", "statement": "getActualSize is the number of bytes in blocks currently held, getReleasableSize the bytes in entirely free blocks, getTotalBlocks/getReleasableBlocks their counts, getAlignedSize the rounded bytes handed out; getActualHighwaterMark and getAlignedHighwaterMark are the historical maxima.", "quantifier": "for every history of pool operations and parent responses", "why_tests_cant": "Five counters are updated incrementally on split, merge, growth and release paths; equality with the definition needs an invariant over all histories.", "anchors": ["src/umpire/strategy/QuickPool.cpp: allocate, deallocate, release, getActualSize, getReleasableSize, getTotalBlocks, getReleasableBlocks, getAlignedSize"]}
{"id": "C11", "title": "QuickPool: release frees exactly the idle blocks and never live memory", "statement": "release() returns to the parent exactly those blocks none of whose bytes are currently allocated; no live allocation is affected, and when nothing is live every byte goes back to the parent and getActualSize becomes zero.", "quantifier": "for every reachable pool state", "why_tests_cant": "Whether a block counts as idle depends on complete merging of its fragments under all deallocation orders.", "anchors": ["src/umpire/strategy/QuickPool.cpp: release, deallocate"]}
{"id": "C12", "title": "QuickPool: freed neighbours are always merged", "statement": "No two adjacent fragments of one block are ever both free, so a block whose allocations have all been returned is again available as a single fragment of full size, irrespective of the order in which the allocations were returned.", "quantifier": "for every allocation pattern and every deallocation order", "why_tests_cant": "n! deallocation orders of n fragments; only an invariant covers them.", "anchors": ["src/umpire/strategy/QuickPool.cpp: deallocate (merge with prev/next)"]}
{"id": "C13", "title": "QuickPool: the parent is only used when no free fragment fits", "statement": "An allocation request is served from pool memory without calling the parent whenever getLargestAvailableBlock() is at least the rounded request, and the fragment chosen is a smallest one that fits; otherwise exactly one block is requested, of at least the configured minimum size.", "quantifier": "for every reachable pool state and request size", "why_tests_cant": "The claim is about absence of a side effect for all states.", "anchors": ["src/umpire/strategy/QuickPool.cpp: allocate, getLargestAvailableBlock"]}
{"id": "C14", "title": "QuickPool: heuristic-driven coalescing terminates and preserves live data", "statement": "deallocate, including any coalescing triggered by the configured heuristic, terminates and leaves every other live allocation in place.", "quantifier": "for every heuristic setting and every reachable state", "why_tests_cant": "Coalescing re-enters allocate/deallocate recursively; non-termination arises only in particular states and is a stack overflow in practice.", "anchors": ["src/umpire/strategy/QuickPool.cpp: deallocate, do_coalesce, percent_releasable, percent_releasable_hwm, blocks_releasable, blocks_releasable_hwm", "src/umpire/strategy/PoolCoalesceHeuristic.hpp"]}
{"id": "C15", "title": "Size rounding never loses bytes", "statement": "The size a pool reserves for a request is the smallest multiple of the alignment that is at least the request, for every request size representable in size_t.", "quantifier": "for every 64-bit size and power-of-two alignment", "why_tests_cant": "2^64 sizes; wrap-around at the top of the range is invisible to ordinary tests.", "anchors": ["src/umpire/strategy/mixins/AlignedAllocation.inl: aligned_round_up, aligned_allocate"]}
{"id": "C16", "title": "DynamicPoolList: live allocations never overlap and lie in pool memory", "statement": "At every moment all live allocations handed out by a DynamicPoolList are pairwise disjoint byte ranges of at least the requested size inside blocks currently held from the parent.", "quantifier": "for every history of allocate/deallocate/release/coalesce calls, every parent behaviour and every configuration", "why_tests_cant": "See QuickPool: infinite space of split/merge histories.", "anchors": ["src/umpire/strategy/DynamicSizePool.hpp: allocate, deallocate, splitBlock, releaseBlock, allocateBlock", "src/umpire/strategy/DynamicPoolList.cpp"]}
{"id": "C17", "title": "DynamicPoolList: accounting and complete merging", "statement": "Actual size, releasable size, block counts and aligned size reported by a DynamicPoolList equal their definitions over the blocks and fragments it holds; adjacent free fragments of the same parent block are always merged.", "quantifier": "for every history of pool operations and parent responses", "why_tests_cant": "Counters and merge conditions are maintained incrementally along address-sorted lists.", "anchors": ["src/umpire/strategy/DynamicSizePool.hpp: getActualSize, getReleasableSize, getReleasableBlocks, getTotalBlocks, getBlocksInPool, releaseBlock, freeReleasedBlocks"]}
{"id": "C18", "title": "DynamicPoolList: release frees exactly the idle blocks", "statement": "release() returns to the parent exactly the blocks with no live allocation in them, leaves live allocations untouched, and returns everything when nothing is live.", "quantifier": "for every reachable pool state", "why_tests_cant": "Depends on merging being complete for all deallocation orders.", "anchors": ["src/umpire/strategy/DynamicSizePool.hpp: freeReleasedBlocks, release", "src/umpire/strategy/DynamicPoolList.cpp: release"]}
{"id": "C19", "title": "FixedPool: slots are exclusive and reusable", "statement": "Every live allocation of a FixedPool is a distinct slot of the configured object size inside memory held from the parent; a freed slot becomes available again; the pool only grows when all slots are in use.", "quantifier": "for every history of allocate/deallocate/release calls, every object size and objects-per-pool configuration", "why_tests_cant": "Slot availability is a bitmap spread over 32-bit words with an off-by-one sized tail; behaviour at each word boundary and all fill patterns cannot be enumerated.", "anchors": ["src/umpire/strategy/FixedPool.cpp: allocate, allocInPool, deallocate, newPool, release", "src/umpire/util/find_first_set.hpp"]}
{"id": "C20", "title": "FixedPool: reported sizes are exact", "statement": "getActualSize of a FixedPool equals the bytes it currently holds and getCurrentSize the bytes handed out, including after release().", "quantifier": "for every history", "why_tests_cant": "Counters drift with history; a test must call release and then re-check every counter.", "anchors": ["src/umpire/strategy/FixedPool.cpp: newPool, release, getActualSize, getCurrentSize, numPools"]}
{"id": "C21", "title": "Internal record pool never hands out a slot twice", "statement": "The fixed-size malloc pool that stores Umpire's own records returns distinct, in-bounds, non-overlapping slots for all outstanding requests and accepts back exactly what it handed out.", "quantifier": "for every sequence of allocate/deallocate", "why_tests_cant": "The free list is threaded through the slots themselves with lazy initialisation; correctness of the encoded indices needs an invariant over all histories.", "anchors": ["src/umpire/util/FixedMallocPool.cpp: allocInPool, allocate, deallocate, newPool"]}
{"id": "C22", "title": "SizeLimiter never exceeds its limit", "statement": "The total size of live allocations obtained through a SizeLimiter never exceeds the limit, and a request is refused exactly when it would exceed it.", "quantifier": "for every limit, every history of (tracked) allocations and deallocations, every 64-bit size", "why_tests_cant": "Safety over all histories, including wrap-around of the running total.", "anchors": ["src/umpire/strategy/SizeLimiter.cpp: allocate, deallocate"]}
{"id": "C23", "title": "Monotonic allocator: disjoint ranges within capacity", "statement": "Allocations from a MonotonicAllocationStrategy are pairwise disjoint and inside its single block; a request that does not fit is refused and changes nothing.", "quantifier": "for every capacity and every request sequence", "why_tests_cant": "Bump arithmetic wraps for large sizes; failures must be side-effect free for all sequences.", "anchors": ["src/umpire/strategy/MonotonicAllocationStrategy.cpp: allocate, getCurrentSize, getHighWatermark"]}
{"id": "C24", "title": "SlotPool: slot bookkeeping", "statement": "A SlotPool with n slots can serve n simultaneously live allocations, reuses the memory of a freed slot only for requests that fit in it, never hands the same memory out twice, and signals exhaustion.", "quantifier": "for every number of slots and every history", "why_tests_cant": "Slot state is encoded in the sign of a length; only an invariant covers all transitions.", "anchors": ["src/umpire/strategy/SlotPool.cpp: allocate, deallocate"]}
{"id": "C25", "title": "MixedPool: deallocation returns memory to the pool it came from", "statement": "A MixedPool serves each request from the fixed pool of the smallest sufficient size class or from its dynamic pool, live allocations never overlap, and each deallocation goes to the pool that served the allocation.", "quantifier": "for every size-class configuration and every history", "why_tests_cant": "Pool selection is remembered per address in a map whose entries survive deallocation; stale entries must never misroute for any history.", "anchors": ["src/umpire/strategy/MixedPool.cpp: MixedPool, allocate, deallocate"]}
{"id": "C26", "title": "AlignedAllocator returns aligned memory and frees what it obtained", "statement": "Pointers from an AlignedAllocator are aligned as requested, the usable range lies inside the parent's allocation, ranges are disjoint, and deallocate hands the parent exactly the pointer the parent returned.", "quantifier": "for every power-of-two alignment >= 16, every parent placement, every history", "why_tests_cant": "Correctness of the pointer stash depends on modular arithmetic for all base addresses.", "anchors": ["src/umpire/strategy/AlignedAllocator.cpp: allocate, deallocate, allocateAligned"]}
{"id": "C27", "title": "Allocator identity: names and ids are unique and stable", "statement": "No two allocators ever have the same name or the same id; getAllocator(name), getAllocator(id) and the id stored in the handle agree; an id is never reused; creating an allocator under an existing name throws and changes nothing.", "quantifier": "for every sequence of makeAllocator / getAllocator / makeResource / addAlias / removeAlias calls", "why_tests_cant": "Uniqueness must survive every interleaving of lazy resource creation, explicit creation and aliasing.", "anchors": ["src/umpire/ResourceManager.inl: makeAllocator", "src/umpire/ResourceManager.cpp: makeResource, getAllocationStrategy, getAllocator, addAlias, removeAlias, getNextId"]}
{"id": "C28", "title": "Aliases resolve to the aliased allocator until removed", "statement": "addAlias makes the new name resolve to the same allocator without changing any other name; an existing name is never silently rebound; removeAlias undoes exactly that; an allocator's own name cannot be removed; no call dereferences an invalid registry entry.", "quantifier": "for every sequence of registry operations", "why_tests_cant": "Frame conditions over all other names and all operation sequences.", "anchors": ["src/umpire/ResourceManager.cpp: addAlias, removeAlias, isAllocator"]}
{"id": "C29", "title": "reallocate preserves contents", "statement": "For every allocator, reallocate(ptr, n) returns an allocation of n bytes whose first min(old, n) bytes equal the old contents, the old pointer is no longer registered (unless unchanged), and all other allocations keep their contents.", "quantifier": "for every allocator stack, size pair and memory contents", "why_tests_cant": "Statement quantifies over all byte contents and sizes and over in-place versus moving behaviour of realloc.", "anchors": ["src/umpire/ResourceManager.cpp: reallocate, reallocate_impl", "src/umpire/op/HostReallocateOperation.cpp", "src/umpire/op/GenericReallocateOperation.cpp"]}
{"id": "C30", "title": "Failed reallocate leaves the allocation intact", "statement": "If reallocate throws (unknown pointer, interior pointer, wrong allocator, out of memory) the original allocation is still registered with its size and contents, and can still be deallocated.", "quantifier": "for every state and every failure point", "why_tests_cant": "Failure injection at each internal step for every state.", "anchors": ["src/umpire/ResourceManager.cpp: reallocate_impl", "src/umpire/op/HostReallocateOperation.cpp", "src/umpire/op/GenericReallocateOperation.cpp"]}
{"id": "C31", "title": "reallocate keeps the statistics consistent", "statement": "After reallocate, the allocator's current size equals the sum of the sizes of its live allocations.", "quantifier": "for every history mixing allocate, deallocate and reallocate", "why_tests_cant": "Statistics are maintained by different code paths for the two reallocation operations; equality must hold on all mixed histories.", "anchors": ["src/umpire/op/HostReallocateOperation.cpp: transform", "src/umpire/ResourceManager.cpp: reallocate_impl"]}
{"id": "C32", "title": "copy stays inside both allocations and copies exactly", "statement": "copy(dst, src, n) either throws and changes nothing, or writes exactly n bytes at dst equal to the n bytes at src, leaves every other byte unchanged, and neither reads outside the source allocation nor writes outside the destination allocation; n=0 means the rest of the source allocation.", "quantifier": "for all pointers into live allocations (including interior), all sizes, all contents", "why_tests_cant": "Out-of-bounds access for some size/offset combination is not detectable by value tests.", "anchors": ["src/umpire/ResourceManager.cpp: copy", "src/umpire/op/HostCopyOperation.cpp"]}
{"id": "C33", "title": "memset stays inside the allocation", "statement": "memset(ptr, v, n) writes v to exactly the n bytes at ptr (the rest of the allocation when n=0), leaves all other bytes unchanged, and throws without effect if the range would leave the allocation.", "quantifier": "for all interior pointers, sizes and contents", "why_tests_cant": "Frame condition over all other addresses.", "anchors": ["src/umpire/ResourceManager.cpp: memset", "src/umpire/op/HostMemsetOperation.cpp"]}
{"id": "C34", "title": "move relocates an allocation", "statement": "move(ptr, allocator) returns an allocation of the same size and contents owned by the target allocator, the source is deallocated, an interior pointer is rejected, moving to the owning allocator is the identity, and nothing else changes.", "quantifier": "for every pair of allocators and every contents", "why_tests_cant": "Statement over all contents and allocator pairs.", "anchors": ["src/umpire/ResourceManager.cpp: move"]}
{"id": "C35", "title": "ResourceManager::deallocate reaches the owner", "statement": "ResourceManager::deallocate(ptr) (and umpire::free) deallocates through the allocator that owns ptr; unknown pointers throw and change nothing; interior pointers are rejected without side effects.", "quantifier": "for every reachable system state and every address", "why_tests_cant": "Ownership lookup uses containment, deallocation uses exact match; the combination must be safe for every address.", "anchors": ["src/umpire/ResourceManager.cpp: deallocate", "src/umpire/Allocator.inl: do_deallocate", "src/umpire/Umpire.hpp: free"]}
{"id": "C36", "title": "Composed allocators never overlap", "statement": "In any graph of allocators built by wrapping allocators around others (pools over pools, limiters, aligned, named, several children sharing a parent, over host memory) all live user allocations of the whole process are pairwise disjoint.", "quantifier": "for every finite graph of allocators, every history of calls on any of them, every behaviour of malloc", "why_tests_cant": "The number of compositions and histories is unbounded; tests cover a few two-level stacks.", "anchors": ["src/umpire/strategy/*.cpp", "src/umpire/ResourceManager.cpp", "src/umpire/Allocator.inl"]}
{"id": "C37", "title": "Thread-safe allocators are linearizable", "statement": "Calls to allocate/deallocate on a thread-safe allocator from any number of threads have the same results as some sequential order of those calls consistent with program order, in particular no two threads ever hold overlapping memory.", "quantifier": "for every number of threads and every schedule", "why_tests_cant": "Schedules are unbounded and non-deterministic.", "anchors": ["src/umpire/Allocator.inl: thread_safe_allocate, thread_safe_deallocate", "src/umpire/strategy/ThreadSafeAllocator.cpp"]}
{"id": "C38", "title": "Shared-memory segment: named allocations are shared, counted and disjoint", "statement": "In a shared segment the first allocate of a name reserves a block, further allocates of the same name (from any process) return the same block and count references, the block is recycled only after the matching number of deallocates, distinct live names never overlap, and the segment's free space is never lost.", "quantifier": "for every history of named allocations and deallocations by any number of processes", "why_tests_cant": "Histories interleave processes and fragment the segment arbitrarily.", "anchors": ["src/umpire/resource/HostSharedMemoryResourceImpl.hpp: allocate_named, deallocate, findUsableBlock, splitBlock, releaseBlock, find_existing"]}
{"id": "C39", "title": "DeviceAllocator hands out disjoint ranges to concurrent threads", "statement": "Concurrent allocations from one DeviceAllocator by any number of threads are pairwise disjoint and inside its arena.", "quantifier": "for every schedule of atomic increments and every request size", "why_tests_cant": "Concurrency plus 32-bit counter wrap-around; tests run one grid size.", "anchors": ["src/umpire/DeviceAllocator.cpp: allocate, reset"]}
{"id": "C40", "title": "Ordered pointer map behaves as a finite map", "statement": "The ordered pointer map used for introspection behaves as a finite map: insert does not overwrite, find returns the stored value, erase removes only its key, findOrBefore returns the greatest key not above the query, and iteration lists keys in order exactly once.", "quantifier": "for every sequence of operations and every key", "why_tests_cant": "Refinement statement over all operation sequences.", "anchors": ["src/umpire/util/MemoryMap.inl: doInsert, insert, findOrBefore, doFindOrBefore, find, erase, iterator_::operator++"]}
{"id": "C41", "title": "pointer_overlaps / pointer_contains mean what they say", "statement": "pointer_contains(l, r) holds exactly when the allocation at r is a sub-range of the allocation at l, and pointer_overlaps(l, r) exactly when r starts inside l and ends beyond it.", "quantifier": "for all pairs of live allocations", "why_tests_cant": "Boundary cases over all relative positions.", "anchors": ["src/umpire/Umpire.cpp: pointer_overlaps, pointer_contains"]}
{"id": "C42", "title": "Fragmentation statistic terminates", "statement": "relative_fragmentation returns for every list of allocation records with the ratio of the largest gap to the total gap.", "quantifier": "for every list of records", "why_tests_cant": "Termination over all inputs.", "anchors": ["src/umpire/util/allocation_statistics.cpp: relative_fragmentation"]}
{"id": "C43", "title": "Array allocations have room for every element", "statement": "TypedAllocator<T>::allocate(n) either fails or returns memory for n objects of type T.", "quantifier": "for every element size and every count representable in size_t", "why_tests_cant": "Multiplication wrap-around occurs only for huge counts.", "anchors": ["src/umpire/TypedAllocator.inl: allocate"]}
{"id": "C44", "title": "Generated names are distinct", "statement": "NamingShim gives every allocation a different name for the lifetime of the strategy.", "quantifier": "for every number of allocations", "why_tests_cant": "Distinctness over unbounded histories.", "anchors": ["src/umpire/strategy/NamingShim.cpp: allocate"]}
{"id": "C45", "title": "Resource names round-trip", "statement": "Converting a memory resource type to its name and back is the identity, and unknown names are rejected.", "quantifier": "for every resource type and every string", "why_tests_cant": "All strings cannot be enumerated.", "anchors": ["src/umpire/resource/MemoryResourceTypes.hpp: resource_to_string, string_to_resource, resource_to_device_id"]}
{"id": "C46", "title": "File-backed allocations cover the request", "statement": "A file-backed allocation maps a whole number of pages, at least the requested number of bytes, each allocation uses its own backing file, and each deallocation unmaps exactly what was mapped.", "quantifier": "for every size, page size and history", "why_tests_cant": "Rounding wrap-around and file-name reuse over unbounded histories.", "anchors": ["src/umpire/resource/FileMemoryResource.cpp: allocate, deallocate"]}
{"id": "C47", "title": "DynamicPoolList serves from the smallest fitting gap and asks the parent only when none fits", "statement": "When some free fragment can hold the rounded request, DynamicPoolList::allocate leaves the parent alone and uses a smallest maximal gap that fits; otherwise it requests exactly one block of max(rounded request, minimum block size) plus alignment, and if that fails it releases the idle blocks and tries once more.", "quantifier": "for every reachable pool state, every request size within the parent's limit, every parent behaviour", "why_tests_cant": "Best fit and the fallback path depend on the whole fragmentation state reached by arbitrary histories.", "anchors": ["src/umpire/strategy/DynamicSizePool.hpp: findUsableBlock, allocateBlock, allocate"]}
{"id": "C48", "title": "Device allocators are found by their id and name", "statement": "Every device allocator made is found again by its id and by its name, on host and device, ids are unique, and destroying destroys exactly those made.", "quantifier": "for every sequence of make and destroy calls, every name and size", "why_tests_cant": "Depends on the initial contents of the array and on all pairs of names; tests use one or two allocators.", "anchors": ["src/umpire/device_allocator_helper.cpp: make_device_allocator, get_device_allocator, get_index, destroy_device_allocator", "src/umpire/DeviceAllocator.cpp: DeviceAllocator"]}
{"id": "C49", "title": "FixedSizePool keeps objects apart and counts them", "statement": "The objects a FixedSizePool has handed out never overlap and lie in blocks it holds; while one is free it is handed out, lowest first, without growing; the two reported sizes are exact; the destructor returns everything; anything not handed out is rejected.", "quantifier": "for every object size and pool size, every sequence of calls and placement of blocks", "why_tests_cant": "The pool is a private part of DynamicPoolList with 2048 objects per block; tests never fill one, let alone several, in arbitrary orders.", "anchors": ["src/umpire/strategy/FixedSizePool.hpp: newPool, allocInPool, allocate, deallocate, getCurrentSize, getActualSize, ~FixedSizePool", "src/umpire/strategy/StdAllocator.hpp"]}
{"id": "C50", "title": "Operations are found by name and platforms", "statement": "find returns the operation registered for a name and a pair of platforms and throws otherwise; copy, memset and reallocate are registered for all pairs; an operation registered by the program is found afterwards.", "quantifier": "for every build configuration, every sequence of registrations, every name and pair of platforms", "why_tests_cant": "Each build runs one of 64 configurations; the tests look up a few names for platforms that are there.", "anchors": ["src/umpire/op/MemoryOperationRegistry.cpp: MemoryOperationRegistry, registerOperation, find", "src/umpire/op/MemoryOperationRegistry.hpp: documentation of the class"]}
{"id": "C51", "title": "The end of the program", "statement": "The ResourceManager's destructor destroys the allocators so that none uses another already destroyed and no exception escapes; if the program has deallocated everything, all memory goes back to malloc; memory still held by the program is not given back.", "quantifier": "for every tree of allocators over HOST, every history of calls on them and every behaviour of malloc", "why_tests_cant": "The destructor runs after main; the tests neither inspect what was freed nor vary what is live at that point.", "anchors": ["src/umpire/ResourceManager.cpp: ~ResourceManager", "src/umpire/strategy/QuickPool.cpp: ~QuickPool", "src/umpire/strategy/DynamicPoolList.cpp: ~DynamicPoolList", "src/umpire/strategy/FixedPool.cpp: ~FixedPool", "src/umpire/strategy/MonotonicAllocationStrategy.cpp", "src/umpire/strategy/SlotPool.cpp: ~SlotPool"]}
{"id": "C52", "title": "Untracked allocators and wrongly declared sizes", "statement": "Allocators made without tracking pass size 0 on deallocation; whatever size a deallocation declares, memory handed out stays disjoint, no call has undefined behaviour, limits are enforced exactly and the statistics of the parents stay right.", "quantifier": "for every tree of allocators over HOST, every history mixing tracked and untracked calls and every declared size", "why_tests_cant": "Tests use tracked allocators almost throughout; an untracked one needs a history to drift.", "anchors": ["src/umpire/Allocator.inl: allocate, deallocate", "src/umpire/ResourceManager.inl: makeAllocator", "src/umpire/strategy/AllocationStrategy.hpp: deallocate_internal"]}
{"id": "C53", "title": "The catalogue of memory resources", "statement": "Every listed resource name can be made and is made by a factory of the kind of memory the name stands for; the plain name of every kind that can be made is listed; no name is listed twice; a name with a device number stands for that device; without a GPU, getAllocator of a listed name gives an allocator of that name whatever happened before.", "quantifier": "for every build configuration, number of devices, current device, resource name and history of registry calls", "why_tests_cant": "A test run sees one build on one machine; the factories accept any name containing their keyword, so a clash between names shows up only in some configurations.", "anchors": ["src/umpire/resource/MemoryResourceRegistry.cpp: MemoryResourceRegistry, makeMemoryResource", "src/umpire/resource/MemoryResourceTypes.hpp: resource_to_device_id", "src/umpire/resource/*Factory.cpp: isValidMemoryResourceFor", "src/umpire/ResourceManager.cpp: makeResource"]}
{"id": "C54", "title": "Memory of GPUs and the current device", "statement": "A resource for a device hands out memory of that device only, disjoint from all other live memory; deallocation gives back exactly the allocation named; both leave the calling thread's current device as the program chose it.", "quantifier": "for every behaviour of the vendor's library, number of devices, and history of allocations, deallocations, failures and changes of the current device", "why_tests_cant": "Needs several devices and a vendor call that fails at a chosen moment.", "anchors": ["src/umpire/resource/CudaDeviceMemoryResource.cpp: allocate, deallocate", "src/umpire/resource/HipDeviceMemoryResource.cpp: allocate, deallocate", "src/umpire/alloc/CudaMallocAllocator.hpp", "src/umpire/alloc/HipMallocAllocator.hpp"]}
{"id": "C55", "title": "Resources that advance a counter: constant memory and NO_OP", "statement": "Live allocations of constant memory lie in the 64 KB array and never overlap; a request is granted exactly when it fits beside the live allocations; exactly the last live allocation can be deallocated and other attempts throw and change nothing.  NO_OP never hands out an address twice and never null.", "quantifier": "for every history of requests of any size, refusals, deallocations in any order and failures to find the array", "why_tests_cant": "Tests allocate once or twice; they neither go on after a refusal nor wrap the counter.", "anchors": ["src/umpire/resource/HipConstantMemoryResource.cpp: allocate, deallocate", "src/umpire/resource/CudaConstantMemoryResource.cu: allocate, deallocate", "src/umpire/resource/NoOpMemoryResource.cpp: allocate, deallocate"]}
{"id": "C56", "title": "The null resource", "statement": "Allocations of the null resource (the parent of the pool behind zero-byte allocations) are disjoint ranges of mapped address space; deallocation unmaps exactly the range of the allocation and leaves all others mapped; failures and unknown pointers are reported.", "quantifier": "for every behaviour of mmap and malloc and every history of requests and deallocations", "why_tests_cant": "Nothing may touch the memory, so a test cannot see whether the right pages are mapped; the wrong length read after erase depends on the free list of an internal pool.", "anchors": ["src/umpire/resource/NullMemoryResource.cpp: allocate, deallocate", "src/umpire/util/MemoryMap.inl: doInsert, removeLast", "src/umpire/util/FixedMallocPool.cpp: allocInPool, deallocate"]}
{"id": "C57", "title": "A replay repeats the recorded program", "statement": "The replay tool accepts every log the library records and, when run, makes the same calls in the same order: it creates the same allocators with the same arguments, allocates the same sizes from the corresponding allocators, frees, reallocates, coalesces and releases exactly what the program did, under a one-to-one renaming of live allocations; it writes inside its table; running the compiled file again does the same.", "quantifier": "for every program of the library's recorded calls, every text of the log's other fields, every library the replay runs against and every point at which it throws", "why_tests_cant": "Tests replay a handful of fixed logs and compare the printed output; address reuse, reallocations that move or fail, and names are combinations no finite set covers.", "anchors": ["tools/replay/ReplayInterpreter.cpp: buildOperations, compile_*", "tools/replay/ReplayOperationManager.cpp: runOperations, make*", "tools/replay/ReplayFile.cpp: ReplayFile, checkHeader", "src/umpire/event/json_file_store.cpp: insert", "src/umpire/Allocator.inl: allocate, deallocate", "src/umpire/ResourceManager.cpp: reallocate"]}
{"id": "C58", "title": "Histogram of allocation sizes in the replay tool", "statement": "For every size the bucket is the integer part of its base-2 logarithm; each bucket's counter is the number of live allocations of its class and its high watermark the most there ever were; the totals and the largest size are right.", "quantifier": "for every size_t and every history of allocations and deallocations", "why_tests_cant": "The bucket comes out of a multiplication and a table of 64 entries; tests look at a few sizes only.", "anchors": ["tools/replay/ReplayOperationManager.cpp: log2_64, TrackedCounter, TrackedHistogram, runOperations"]}
{"id": "C59", "title": "Asynchronous operations", "statement": "A program whose calls on one stream do not touch what calls queued on others use ends with the results, allocations and memory contents of the program that waits after every call; copies, memsets and reallocations on a stream, once waited for, change exactly the bytes asked for; calls that are too long, or on a resource of another vendor, change nothing; prefetching asks for bytes of the allocation only.", "quantifier": "for every build configuration, every program, every order in which devices work on their streams, every placement of allocations and every pattern of failing vendor calls", "why_tests_cant": "The order in which streams run is up to the devices; a test sees one order per run, and early reuse of freed memory only if the timing happens to expose it.", "anchors": ["src/umpire/ResourceManager.cpp: copy, memset, reallocate, reallocate_impl, prefetch", "src/umpire/op/MemoryOperation.cpp: transform_async, apply_async", "src/umpire/op/CudaCopyOperation.cpp, HipCopyOperation.cpp, OpenMPTargetCopyOperation.cpp, Sycl*Operation.cpp", "src/umpire/op/CudaMemsetOperation.cpp, HipMemsetOperation.cpp", "src/umpire/op/GenericReallocateOperation.cpp: transform_async", "src/umpire/op/CudaMemPrefetchOperation.cpp"]}
{"id": "C60", "title": "Log messages", "statement": "The level is the one named by UMPIRE_LOG_LEVEL in any mixture of upper and lower case, Info otherwise; the log consists of one line for each message at least as urgent as the level in force, in order and complete as long as writing succeeds, and a beginning of that otherwise; it goes where the stream is directed to and nowhere else; a message is lost only if writing it fails.", "quantifier": "for every environment, every sequence of messages and level changes and every pattern of failing writes and flushes", "why_tests_cant": "Tests look for a few strings in the log of a program that never runs out of disk space.", "anchors": ["src/umpire/util/Logger.cpp", "src/umpire/util/OutputBuffer.cpp: overflow, sync", "src/umpire/util/io.cpp: log"]}
{"id": "C61", "title": "Log files", "statement": "Starting the library finds a name for the log that no process and no existing file has, creates that file and changes no other; it succeeds whenever the directory exists; the log goes to that file only; the end of the program is defined.", "quantifier": "for every file system, directory, process and build", "why_tests_cant": "Leftover files, unreadable files and shared directories are states tests do not set up; the order of destruction of static objects shows no symptom with most standard libraries.", "anchors": ["src/umpire/util/io.cpp: initialize_io, make_unique_filename, file_exists", "src/umpire/util/OutputBuffer.cpp: ~OutputBuffer", "src/umpire/ResourceManager.cpp: ResourceManager, getInstance"]}
{"id": "C62", "title": "Errors tell what failed", "statement": "An out_of_memory_error carries the size asked for and the id of the allocator asked; an unknown_pointer_error carries the pointer.", "quantifier": "for every allocator, call and failure", "why_tests_cant": "An uninitialised member may happen to hold anything, and named allocations that fail are not tested.", "anchors": ["src/umpire/Allocator.inl: do_allocate, do_named_allocate", "src/umpire/util/error.hpp"]}
{"id": "C63", "title": "NUMA placement", "statement": "All of an allocation of a NumaPolicy is on the policy's node when it is returned and stays there; a move to a NumaPolicy keeps the pointer and puts all of the allocation on that policy's node; no other allocation is placed anew; a call that throws leaves no memory behind; the nodes of the host and those of devices are all nodes, each once.", "quantifier": "for every build, page size, set of nodes, tree of strategies, history of allocations, deallocations and moves, and every failure of the system", "why_tests_cant": "Placement is not visible to the program, test machines have one node, and the tests of NUMA are off in most builds.", "anchors": ["src/umpire/strategy/NumaPolicy.cpp", "src/umpire/util/numa.cpp", "src/umpire/op/NumaMoveOperation.cpp", "src/umpire/ResourceManager.cpp: move"]}
{"id": "C64", "title": "Advice and prefetching of allocations", "statement": "Every allocation returned by an AllocationAdvisor or AllocationPrefetcher has been given exactly the advice, or was prefetched, once, for all of its bytes and for the device asked for (the host if the accessing allocator is one of the host); the constructors accept exactly the operations documented for the platform.", "quantifier": "for every build, stack of strategies, device, allocator beneath and failure of the vendor", "why_tests_cant": "Advice changes no contents; tests would need each vendor's devices.", "anchors": ["src/umpire/strategy/AllocationAdvisor.cpp", "src/umpire/strategy/AllocationPrefetcher.cpp", "src/umpire/op/CudaAdviseOperation.cpp", "src/umpire/op/HipAdviseOperation.cpp", "src/umpire/op/CudaMemPrefetchOperation.cpp", "src/umpire/op/SyclMemPrefetchOperation.cpp"]}
{"id": "C65", "title": "Pools under AddressSanitizer", "statement": "In a build with AddressSanitizer every byte of a live allocation of a QuickPool or DynamicPoolList on the host may be accessed, every other byte the pool has from its parent is poisoned (free memory, padding, memory of deallocated allocations), no call changes the state of other live allocations, also in towers of pools; and poisoning changes nothing else the pools do.", "quantifier": "for every parent, configuration, sequence of calls, failure of the parent and acts of others below", "why_tests_cant": "An unpoisoned byte only shows when a test happens to misuse just that byte, and a wrongly poisoned one only when a test happens to touch it.", "anchors": ["src/umpire/util/memory_sanitizers.hpp", "src/umpire/strategy/mixins/AlignedAllocation.inl", "src/umpire/strategy/QuickPool.cpp", "src/umpire/strategy/DynamicSizePool.hpp"]}
{"id": "C66", "title": "C and Fortran interface", "statement": "A C or Fortran program that uses and deletes only handles it has not deleted behaves exactly as the C++ program that makes the same calls with allocators as values: same results, same state of the library, undefined only where that is; the interface keeps exactly one object per handle not yet deleted; names arrive as written and live handles compare equal iff they come from one call.", "quantifier": "for every program, library behaviour, placement of objects, failure and language", "why_tests_cant": "Tests run few programs, free what they make and do not look at the interface's own objects; address reuse depends on malloc.", "anchors": ["src/umpire/interface/c_fortran/wrapAllocator.cpp", "src/umpire/interface/c_fortran/wrapResourceManager.cpp", "src/umpire/interface/c_fortran/wrapUmpire.cpp", "src/umpire/interface/c_fortran/utilUmpire.cpp", "src/umpire/interface/c_fortran/wrapfumpire.f"]}
{"id": "C67", "title": "Fortran arrays", "statement": "An array allocated from Fortran asks its allocator for exactly the bytes of its elements; the elements lie in the memory returned, share no byte and fill it; deallocating the array gives the allocator the pointer it had returned.", "quantifier": "for every element size, rank, extents and allocator", "why_tests_cant": "Sizes near the wrap of 64 bits cannot be allocated in a test.", "anchors": ["src/umpire/interface/c_fortran/genumpiresplicer.py", "src/umpire/interface/c_fortran/wrapfumpire.f"]}
{"id": "C68", "title": "The functions that get memory from the system and the vendors", "statement": "An allocation from a leaf gives fresh memory of exactly the size, vendor, residence, queue or device and coherence asked for; a failed one takes nothing and says whether memory was lacking; memory goes back to the leaf it came from and nowhere else; every leaf meets the contract pools rely on; DEVICE::n has the queue of the n-th GPU unit.", "quantifier": "for every leaf (malloc, posix_memalign, CUDA, HIP, SYCL, OpenMP), size, vendor behaviour, history over several leaves and list of SYCL devices", "why_tests_cant": "Needs four vendors' hardware, failing vendor calls, several SYCL platforms.", "anchors": ["src/umpire/alloc/", "src/umpire/resource/DefaultMemoryResource.inl", "src/umpire/resource/SyclDeviceResourceFactory.cpp:44-69", "src/umpire/resource/MemoryResourceRegistry.cpp:190-218"]}
{"id": "C69", "title": "Platforms and accessibility", "statement": "Where is_accessible says yes the platform can reach the memory, it says yes for the platform the memory belongs to, and the platform of an allocator is that of its resource, whatever strategies lie between.", "quantifier": "for every stack of strategies, resource, platform, machine and build", "why_tests_cant": "Needs machines that differ in what their devices can reach.", "anchors": ["src/umpire/Umpire.cpp:100-111", "src/umpire/alloc/", "src/umpire/resource/", "src/umpire/strategy/NumaPolicy.cpp:19-66"]}
{"id": "C70", "title": "The JSON event store", "statement": "Every event that the program was told is recorded is in the log, once and in order; read back, it is the event that was meant; and a reader of an incomplete or damaged log gets an initial part of the events or an error, never an event that was not recorded. Text that cannot be written is reported and leaves nothing behind.", "quantifier": "for every sequence of events, every name of any bytes, every size and pointer, every way the stream reaches the file and every point at which the program may be killed", "why_tests_cant": "Needs all byte strings (UTF-8, quotes, control characters), all 64-bit numbers and all places a line can be cut.", "anchors": ["src/umpire/event/json_file_store.cpp:25-108, 143-152", "src/umpire/event/event_json.hpp", "src/umpire/event/event.hpp:32-171", "src/tpl/umpire/json/json.hpp (serializer, lexer, parser)"]}
{"id": "C71", "title": "Comparing two logs", "statement": "replaydiff reports no difference exactly when the two programs did the same apart from addresses: the same allocators created with the same arguments, and the same steps on them in the same order. Logs it calls equal are replayed by the same calls. It always comes to an answer, after reading the logs at most once more.", "quantifier": "for every pair of programs, whatever addresses their allocators and allocations were given", "why_tests_cant": "Needs all pairs of logs, in particular all pairs of different length in either order.", "anchors": ["tools/replay/replaydiff.cpp:50-59", "tools/replay/ReplayInterpreter.cpp:244-356", "tools/replay/ReplayFile.cpp:58-95"]}
{"id": "C72", "title": "Event stores in a database", "statement": "Every event the program records reaches the database, once, in order and after what was there, and is read back as the event that was meant; the SQLite store and the JSON file give the same events. Names are data: no name stops the program, overruns a buffer, is changed or is executed. Lines sent to a time series database tell different events apart.", "quantifier": "for every sequence of events and every name, size, pointer and time, and every database that keeps the value of a JSON text", "why_tests_cant": "Needs all byte strings as names, all lengths and all 64-bit numbers.", "anchors": ["src/umpire/event/sqlite_database.cpp:32-138", "src/umpire/event/quest_database.cpp:31-91", "src/umpire/event/recorder_factory.cpp:35-50"]}
{"id": "C73", "title": "Allocators that have nothing in common do not affect each other", "statement": "A call on an allocator changes the state of no allocator outside the chain of allocators it takes memory from (and the pool for zero bytes, if zero bytes are involved), and neither its result nor its effect depends on the state of any other; so too for any sequence of calls.", "quantifier": "for every set of allocators of all kinds stacked in any way, every state of each, every call and every sequence of calls, whether they return or throw", "why_tests_cant": "Needs all pairs of states that differ in one allocator only, for all stacks.", "anchors": ["src/umpire/strategy/AllocationStrategy.cpp:20-55", "src/umpire/Allocator.inl:20-127", "src/umpire/strategy/mixins/Inspector.cpp:17-56", "src/umpire/strategy/mixins/AllocateNull.cpp:22-43"]}
{"id": "C74", "title": "Data races and deadlocks", "statement": "Threads may use the library at the same time: an allocator shared by threads if it is thread-safe, different allocators if they share no memory; queries, creation of allocators and lookups at any time. No two threads then access a variable of the library at once, one of them to write it, and no thread waits for ever.", "quantifier": "for every set of allocators, any number of threads, every program of each and every interleaving of their accesses to shared variables", "why_tests_cant": "Needs all interleavings of all programs; a race is not visible in the result of a run.", "anchors": ["src/umpire/Allocator.inl:20-127", "src/umpire/Allocator.cpp:17-67", "src/umpire/util/AllocationMap.cpp:155-290", "src/umpire/ResourceManager.inl:20-55", "src/umpire/ResourceManager.cpp:132-313", "src/umpire/ResourceManager.cpp:853-911", "src/umpire/strategy/AllocationStrategy.cpp:20-55"]}
{"id": "C75", "title": "Opening a shared memory segment by several processes", "statement": "Processes that construct the shared memory resource of one name get one and the same segment, which exactly one of them sets up before any of them uses it; every process that goes on gets in; operations of all processes take effect one after the other; when the last process has left, the name is gone.", "quantifier": "for any number of processes, all requested sizes, every interleaving of their system calls and atomic accesses, every pattern of failing calls, kills and exits", "why_tests_cant": "Needs all interleavings of processes at the granularity of system calls, with a failure or a kill at each point.", "anchors": ["src/umpire/resource/HostSharedMemoryResourceImpl.hpp:50-179", "src/umpire/resource/HostSharedMemoryResourceImpl.hpp:471-510"]}
{"id": "C76", "title": "Backtraces and the text of errors", "statement": "Backtraces are recorded and printed exactly if they were switched on; a printed backtrace has one line for each frame, numbered, with address and symbol; the text of every error gives file, line, message and backtrace.", "quantifier": "for all values and changes of the environment variable, all stacks, all answers of the symbol functions, all messages, all orders in which translation units ask", "why_tests_cant": "Needs all contents of the variable, all stack depths and symbol answers, including exhausted memory.", "anchors": ["src/umpire/util/backtrace.inl:37-146", "src/umpire/util/error.hpp:22-39", "src/umpire/Umpire.cpp:113-123"]}
{"id": "C77", "title": "Umpire in a parallel program", "statement": "Initialisation fixes rank, size and communicator once; every allocator with node scope has one communicator, split off the one given; all processes that call initialize_io get through it, and find the directory of the log files if files are logged.", "quantifier": "for any number of processes, every interleaving of their steps, every sequence of calls, every failure to make the directory", "why_tests_cant": "Needs all interleavings of any number of processes; a hang depends on the order in which they look at the file system.", "anchors": ["src/umpire/util/MPI.cpp:22-97", "src/umpire/Umpire.hpp:22-40", "src/umpire/Umpire.cpp:239-260", "src/umpire/util/io.cpp:91-125"]}
{"id": "C78", "title": "Questions about memory in use, and what errors say", "statement": "get_process_memory_usage and its high water mark give what the kernel says, in bytes; get_device_memory_usage gives what the device asked for uses and leaves the current device alone; errors carry the size, the allocator and the pointer they are about.", "quantifier": "for all texts of the proc files, all page sizes, all devices, all allocators, sizes and pointers", "why_tests_cant": "Needs all texts, among them missing and truncated files, and all devices, among them some that do not exist.", "anchors": ["src/umpire/Umpire.cpp:125-167", "src/umpire/Umpire.cpp:175-236", "src/umpire/Allocator.inl:20-89", "src/umpire/util/error.hpp:53-106"]}
{"id": "C79", "title": "Sessions and options of the replay tool", "statement": "Whatever earlier sessions did to the compiled file kept beside the log, a session makes the calls of the recorded program, with the pool and the heuristic its options ask for, in order, or those up to the first at which the library throws; a forced compile does so over any file.", "quantifier": "for all programs, all histories of sessions with any options and any libraries, all contents of an older compiled file", "why_tests_cant": "Needs all histories of sessions over one log; what a session does depends on bytes an earlier one left in the compiled file.", "anchors": ["tools/replay/ReplayFile.cpp:24-137", "tools/replay/ReplayInterpreter.cpp:52-175", "tools/replay/ReplayOperationManager.cpp:145-338", "tools/replay/ReplayOperationManager.cpp:491-707", "tools/replay/ReplayOptions.hpp:13-53", "tools/replay/replay.cpp:50-68"]}
{"id": "C80", "title": "What is printed of the live allocations", "statement": "Printing the allocation map gives a paragraph for each registered address with records asked for, by ascending address, with a line of size, range and name for each record, newest first, and nothing else; print_allocator_records prints a title and the records of this allocator, or nothing if it has none; printing changes nothing.", "quantifier": "for all histories of registrations, all predicates and allocators, with or without backtraces", "why_tests_cant": "Needs all histories of the map, whose iteration runs through a Judy array with a shared cursor.", "anchors": ["src/umpire/util/AllocationMap.cpp:284-319", "src/umpire/Umpire.cpp:36-48"]}
{"id": "C81", "title": "What an allocator says about its memory", "statement": "The traits of an allocator are those of the resource it rests on, through any strategies; those of a resource agree with its name in the kind of memory, the device and the granularity, and with the build in the maker; traits given by the user are kept except what the name says; prefetching is accepted for unified memory only, communicators are for shared memory only, and copies with OpenMP run between the devices of the allocators.", "quantifier": "for all builds, machines, resource names, traits and towers of strategies", "why_tests_cant": "A test runs in one build on one machine; the traits depend on both, and on any tower of strategies.", "anchors": ["src/umpire/util/MemoryResourceTraits.hpp:20-54", "src/umpire/ResourceManager.cpp:132-186", "src/umpire/resource/MemoryResourceRegistry.cpp:276-284", "src/umpire/op/OpenMPTargetCopyOperation.cpp:18-37"]}
{"id": "C82", "title": "The percentages of the coalescing heuristics", "statement": "percent_releasable(p) and percent_releasable_hwm(p) of both pools refuse p outside 0..100, never ask for coalescing at 0, ask for it when at least p percent of the pool's memory is releasable and not when less is, and always when nothing is in use; the arithmetic is that of single precision.", "quantifier": "for all percentages and all sizes below 2^64", "why_tests_cant": "The threshold is computed in single precision: errors show only at particular pairs of percentage and size, and sizes above 2^24 are rounded first.", "anchors": ["src/umpire/strategy/QuickPool.cpp:361-403", "src/umpire/strategy/DynamicPoolList.cpp:153-195"]}
{"id": "C83", "title": "The counters of allocators that others are built on", "statement": "getCurrentSize and getAllocationCount of every allocator say what has been taken from it and not given back, by the program and by the strategies created on it; HOST's say what malloc has given out.", "quantifier": "for all collections of allocators over HOST, all histories of calls including failing ones, all behaviours of malloc", "why_tests_cant": "Drift at a parent needs a failure inside a pool or many shim allocations to become visible, and the tree of allocators is arbitrary.", "anchors": ["src/umpire/strategy/AllocationStrategy.cpp:20-55", "src/umpire/strategy/NamingShim.cpp:27-36", "src/umpire/strategy/QuickPool.cpp:61-82"]}
{"id": "C84", "title": "The scripts that draw allocations", "statement": "plot_allocations reads from what print_allocator_records writes exactly the live allocations of that allocator and paints exactly their bytes, allocations next to each other as one, several allocators to the same scale and origin; plot_allocator_traces reads the logs that this version writes.", "quantifier": "for all sets of records, names, addresses and sizes; all events", "why_tests_cant": "The scripts have no tests; errors show only for particular distances between allocations or particular names.", "anchors": ["tools/analysis/plot_allocations:6-86", "tools/analysis/plot_allocator_traces:6-68", "src/umpire/Umpire.cpp:36-48", "docs/sphinx/cookbook/plot_allocations.rst"]}
{"id": "C85", "title": "External registrations", "statement": "Memory that the program registers with register_external_allocation is found, sized, listed and attributed like an allocation until it is deregistered, the newest registration of an address first; it changes neither the allocators, nor their statistics, nor which of their allocations they can free; and Umpire neither frees it nor loses track of its own allocations through it.", "quantifier": "for all interleavings of registrations, withdrawals and calls to allocators; all records and addresses", "why_tests_cant": "The tests register one block with a correct record and withdraw it; they neither mix it with allocations, nor free through an allocator, nor use records that name another address or no strategy.", "anchors": ["src/umpire/Umpire.cpp:263-287", "src/umpire/ResourceManager.cpp:335-360", "src/umpire/ResourceManager.cpp:853-890", "src/umpire/strategy/mixins/Inspector.cpp:17-60", "src/umpire/util/AllocationRecord.hpp:42"]}
{"id": "C86", "title": "Memory of device allocators and the device's table of them", "statement": "In use are exactly the memory and the counter of every device allocator and the array of them; destruction, by hand or at the exit, gives all of it back and never throws; host and device look into the same array, so that device code finds every device allocator that was made and none that was destroyed.", "quantifier": "for all sequences of makings, refused makings, destructions and uses of the macro in any translation units; all addresses, names and sizes; all failures of allocations and copies", "why_tests_cant": "The tests make a few device allocators, destroy them once at the end and look at results of kernels; they neither make any after a destruction, nor let allocations or copies fail, nor count what stays allocated.", "anchors": ["src/umpire/device_allocator_helper.cpp:24-25", "src/umpire/device_allocator_helper.cpp:89-228", "src/umpire/device_allocator_helper.hpp:14-24", "src/umpire/device_allocator_helper.hpp:74-91", "src/umpire/DeviceAllocator.cpp:19-70"]}
{"id": "C87", "title": "The summary of the replay tool", "statement": "The summary that the replay tool prints of a log gives the number of calls of every kind that the recorded program made, the number of deallocations that were ignored because nothing live was there, the version of the log, and as leaked the number of allocations that were live when the log ended.", "quantifier": "for every program the tool can replay, with any reallocations, stray and null deallocations and external registrations in any order; the version for all logs", "why_tests_cant": "The tests compare printed summaries of a few logs whose programs never free null, free twice or lack a version; the numbers depend on the whole sequence of events.", "anchors": ["tools/replay/ReplayInterpreter.cpp:52-205", "tools/replay/ReplayInterpreter.cpp:765-802", "tools/replay/ReplayInterpreter.hpp:50-68"]}
{"id": "C88", "title": "Logs of several threads", "statement": "When several threads allocate and deallocate at the same time, the log is that of a program one thread could have run: no allocation is recorded at an address at which its allocator has one by the log, so it can be replayed and the replay repeats it; the calls of each thread are in it in their order and once; when no thread is inside of a call, what is live by the log is what the strategies have given out.", "quantifier": "for all numbers of threads, all interleavings of the steps of allocate and deallocate, all addresses the strategies give, all other recorded calls in between", "why_tests_cant": "Whether an address is recorded as taken before it is recorded as given back depends on the schedule between two statements; tests see few schedules.", "anchors": ["src/umpire/Allocator.inl:20-48", "src/umpire/Allocator.inl:91-112", "src/umpire/ResourceManager.inl:39-54", "src/umpire/event/event.hpp:276-294"]}
{"id": "C89", "title": "Logs of a program that forks", "statement": "Each process of a program that forks has a log with its own process id that holds the events it recorded, each once, whole and in order, and that can be read and replayed.", "quantifier": "for all programs of any number of processes that fork, record, exit or are killed in any order, all moments at which the C library passes on buffered bytes, all events", "why_tests_cant": "No test forks; what a stream still holds at a fork and where a write is cut depends on sizes and times.", "anchors": ["src/umpire/event/recorder_factory.cpp:35-50", "src/umpire/event/json_file_store.cpp:30-78", "src/umpire/event/json_file_store.cpp:143-152"]}
{"id": "C90", "title": "What a reader of JSON logs takes", "statement": "A reader of a JSON log gets events if and only if each line of the file is a JSON text (RFC 8259) of an event, and these are the events that the lines stand for; every other file is refused with an exception.", "quantifier": "for all files of any bytes, all texts, tokens, numbers, escapes and nestings", "why_tests_cant": "Needs all byte strings as input, among them all escapes, surrogates, malformed UTF-8 and nestings of any depth.", "anchors": ["src/tpl/umpire/json/json.hpp:6789-8213", "src/tpl/umpire/json/json.hpp:11010-11376", "src/umpire/event/event_json.hpp:35-53", "src/umpire/event/json_file_store.cpp:80-108"]}
