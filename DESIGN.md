# Formal model of Umpire's allocation core

Source: LLNL/Umpire at the pinned commit in `/repo` (read as text; never built or run here).
Proof assistant: Rocq/Coq 8.16.1, `rocq/theories/`, logical prefix `Verif`.

## 1. Approach

* The code is modelled function by function as total, executable Gallina in `*Model.v` files.  Every
  definition cites the file and lines it models and says where it is simplified.
* Arithmetic is on `Z`; `size_t` / `unsigned` wrap-around is written out (`w64`, `w32`).
* A C++ call has one of these outcomes (`Base.v`): `Ok w a` (returned), `Throw w e` (exception, with the state
  it leaves behind), `UB` (undefined behaviour: dereferencing `end()`, freeing an unknown base pointer, ...),
  `Abort` (exception escaping a `noexcept` function, i.e. `std::terminate`), `NoFuel` (the recursion did
  not finish within the fuel; excluded by statement or shown to be genuine non-termination).
* The environment is an oracle inside the state: every call of `malloc`/`realloc`/the parent takes its answer
  (an address, or failure) from a script.  A script entry is only honoured when it is a legal answer (fresh,
  in range, aligned); all theorems quantify over all scripts, so they cover every placement and every pattern
  of failures.
* Pools are parametric in their parent: a world type, an allocate and a deallocate function, and a
  predicate `Inv w L` ("the client holds exactly the regions `L`").  A theorem about a pool is proved for
  every parent that meets the small contract `ParentSpec`; each pool is then shown to meet the same
  contract for its own clients, so the theorems compose to arbitrary graphs of allocators.
* Specifications are in `*Spec` sections/files written only in terms of observable effects (regions handed out,
  returned values, exceptions, byte contents); `Props_*.v` contain only theorems closed by `exact`
  and `Print Assumptions`.

## 2. Trusted base

* The Coq 8.16.1 kernel (and `vm_compute`).
* Axioms: none of ours.  `Print Assumptions` under every theorem is expected to say
  "Closed under the global context"; any stdlib axiom that shows up is listed in section 5.
  (`vcheck` additionally reports `Coq.ssr.ssrunder.Under_rel.*` as axioms of *loaded libraries*: they are
  module parameters of the standard library's ssreflect files, pulled in by `ZifyBool`; no theorem here depends on them.)
* The correspondence between the Gallina definitions and the C++ text: by reading only.
* The behaviour assumed of libc / std containers: `malloc` returns fresh, disjoint, 16-byte aligned memory
  or fails; `realloc` preserves the common prefix; `memcpy`/`memset` act on the stated bytes; `std::map`,
  `std::multimap`, `std::unordered_map`, `std::list` behave as finite maps / sorted multisets / maps / lists.
* Streams (C59): a call queued on a stream acts when it runs, in the order of its stream; memory is one address space for host and
  devices.
* The C library's text functions (C70): `strtod` is an oracle (no theorem depends on what it answers), `%ld` of a `size_t` prints it as
  a signed number, a stream passes bytes on in order and loses none, `fprintf` to a stream for reading fails and is not noticed.
* AddressSanitizer (C65): what its run time library does to the shadow in `__asan_poison_memory_region` and
  `__asan_unpoison_memory_region`, with default options.
* The Judy array (`src/tpl/umpire/judy/judy.c`) is modelled as a tree of linear and radix nodes; `JudySpec` (MapSpec.v)
  is the contract `MemoryMap` relies on and `judy_array_ok` (JudyUpdate.v) proves it.  Simplified: node memory is
  not bytes but contents, the two 16-way halves of a radix node are merged, `judy_alloc` never fails.

## 3. What is not modelled

SLIC logging, SQLite itself and the socket of the quest store (recording and replaying: C57, event stores: C70, C72), the symbol functions behind backtraces (oracles in C76), the vendors' libraries themselves (what they answer is an oracle in C54, C55 and C68), MPI itself (C77: its answers are oracles, MPI_Barrier returns when all have called it), static initialisation
and destruction order (other than ~ResourceManager itself, C51), environment variables.

## 4. Properties

See the table (updated as the model grows; `MANIFEST.json` is the machine-readable version).

| id | modelled code | method |
|----|---------------|--------|
| C01-C03 | AllocationMap, RecordList, MemoryMap, judy.c | refinement to a list of registrations (Judy tree -> finite map -> stacks of records), induction over operations; done in `Judy*.v`, `Map*.v`, `AllocMapThms.v`, `Props_Map.v` |
| C04-C06 | Allocator, Inspector, AllocationStrategy counters | invariant over all histories of the whole system (`shist`: allocators of GlobalModel, AllocationMap, ResourceManager together); `System*.v`, `Props_System.v` |
| C07 | AllocateNull + FixedPool | same invariant: the zero-byte pool is allocator 3 of the system |
| C08-C14 | QuickPool (pointer-linked chunks, size map, pointer map), AlignedAllocation | representation invariant over linked structure; refutations by computation where the code violates the claim |
| C15 | AlignedAllocation rounding | arithmetic; refuted at the top of the range |
| C16-C18, C47 | DynamicSizePool, DynamicPoolList | representation invariant over address-sorted lists; the reported values are shown equal to those of a QuickPool state with the same fragments (`DynPoolView.v`); `DynPool*.v`, `Props_DynPool.v` |
| C19-C20 | FixedPool | bitmap invariant |
| C21 | FixedMallocPool | free-list invariant |
| C22-C26 | SizeLimiter, Monotonic, SlotPool, MixedPool, AlignedAllocator | invariants |
| C27-C28 | ResourceManager registry (names, ids, resource types, default allocator), makeResource with its aliases, failing constructors | invariant over all sequences of registry calls; `Registry*.v`, `Props_Registry.v`.  The set of resource names, the names factories accept and failures while computing traits are parameters |
| C29-C31 | reallocate and the two reallocate operations | `Ops*.v`, `Props_Ops.v`: pre/post over every state of `shist` and every memory contents; bytes outside the live allocations change arbitrarily at each allocator call (`noise`); the resulting state is again one of `shist`, so C04-C06 apply to it.  A successful `::realloc` puts HOST on the list of allocators without statistics claim; after a failing one the history is not continued |
| C32-C34 | copy, memset, move | same; synchronous host operations only (camp resources: C59; NUMA: C63) |
| C35 | ResourceManager::deallocate | same invariant, `Props_System.v` |
| C36 | composition of all strategies | ParentSpec is closed under every strategy; induction over the allocator graph.  Monotonic, SlotPool and a DynamicPoolList that coalesces cannot be parents: they return null or throw from `deallocate` after taking the memory back (the latter's effect is part of `shist`, `sh_free_throw`); release and coalesce of what is no pool: `GlobalIdle.v` |
| C37 | the calls of Allocator on a ThreadSafeAllocator, any threads and schedules | `Conc*.v`, `Props_Conc.v`: interleaving semantics (lock, one step per access to a statistics field or to the registry or call of a strategy, unlock, return), linearizability by an invariant with the order of unlocking as ghost; independent of how calls are cut into steps (`C37_any_steps`); no overlap and no deadlock from C04 and C07.  Memory order is sequentially consistent; a mutex is a location that at most one thread owns.  Calls other than allocate and deallocate (release, getters, which take no mutex) are not included |
| C38 | HostSharedMemoryResourceImpl: allocate_named, deallocate, find_pointer_from_name and the block lists, on offsets | `Seg*.v`, `Props_Seg.v`: invariant (used and free lists tile the segment, free list sorted without neighbours) over all histories.  Each operation is one step (it holds the segment mutex; the read of `best->memory_offset` after the unlock, 236, is taken inside); creating, opening and mapping the segment: C75 |
| C39 | DeviceAllocator::allocate and reset, one step per access to the counter, any threads; the check under HIP, none under CUDA | `Device*.v`, `Props_Device.v`: invariant over all interleavings since the last reset, fewer than 2^32 bytes asked for; memory order is sequentially consistent |
| C40 | MemoryMap, judy.c | refinement to a finite map with iterators (`Props_Map.v`) |
| C41 | pointer_overlaps, pointer_contains over AllocationMap | `MiscModel.v`, `Props_Misc.v`: from the lookup theorems of C01 |
| C42 | relative_fragmentation; the loop on indices, the float quotient is not modelled (the pair of its operands is returned) | refuted: it does not terminate |
| C43 | TypedAllocator over the whole system | from the system invariant; the product `sizeof(T) * n` wraps explicitly |
| C44, C45 | NamingShim, MemoryResourceTypes | direct; `resource_to_device_id` is in C53 |
| C46 | FileMemoryResource without umap; open, ftruncate, mmap, munmap, remove are oracles; file contents are not modelled | `File*.v`, `Props_File.v`: invariant over all histories; mappings are page ranges, munmap cuts them; nobody else touches the files |
| C48 | device_allocator_helper.cpp: the table of 64, lookups by id and name on host and device | `Device*.v`, `Props_Device.v`: invariant over all histories; the array is fresh memory with arbitrary contents |
| C49 | FixedSizePool over malloc; the diagnostics are left out | `BlockPool*.v`, `Props_BlockPool.v`: bitmap invariant over all histories in which malloc had room when the pool had to grow |
| C50 | MemoryOperationRegistry in all build configurations; operations are told apart by class and constructor argument | `OpTable*.v`, `Props_OpTable.v`: refinement to the list of registrations |
| C51 | the destructors of all strategies and ~ResourceManager (`TeardownModel.v`); its log message about unfreed memory is left out | `Teardown*.v`, `Props_Teardown.v`: induction over the tree; the heap holds exactly what the invariant of C36 says |
| C52 | `Allocator::allocate` and `deallocate` of an allocator without tracking; a deallocation may declare any size | `Loose*.v`, `Props_Loose.v`: the invariant of C36 is preserved whatever size is declared |
| C53 | MemoryResourceRegistry in all build configurations, isValidMemoryResourceFor of all factories, resource_to_device_id; the other traits are C81 | `Catalog*.v`, `Props_Catalog.v`, `IdSpec.v`, `IdFacts.v`, `Props_Id.v` (resource_to_device_id against a relation on strings, all names): case analysis over names with decimal numbers; the registry invariant of C27 over histories that create listed resources only |
| C54 | CudaDeviceMemoryResource and HipDeviceMemoryResource with their vendor allocators, one thread; the vendor's library is an oracle with a current device, whose answers count as errors when they are not fresh memory (so a null answer to 0 bytes is one) | `Gpu*.v`, `Props_Gpu.v`: invariant over histories; the contract of a parent (C01 ff.) holds, so pools over DEVICE inherit the theorems about strategies |
| C55 | HipConstantMemoryResource, CudaConstantMemoryResource, NoOpMemoryResource; one call at a time; requests of 0 bytes are left out (Allocator::allocate serves them elsewhere, C07) | `Const*.v`, `Props_Const.v`: invariant over histories, refused requests included; size_t wrap explicit |
| C56 | NullMemoryResource (not Windows) with the memory of its MemoryMap's values in a FixedMallocPool; mmap is an oracle; the keys are a list (Judy: C01); reading a value after its slot was returned gives what the memory holds (strictly: undefined) | `Null*.v`, `Props_Null.v`: invariant over the free list of slots, the keys and the mappings |
| C57 | calls of event::record, json_file_store, ReplayInterpreter (build), ReplayFile, ReplayOperationManager (run); the class of an allocator is not mangled, options are the defaults, the library is an oracle that answers or throws | `Replay*.v`, `Props_Replay.v`: invariant of the compiler over the calls of a program (table of operations, keys of live allocations, the run of the table so far); the log of the run is related to the program by `mirrors`; `Trace*.v`, `Props_Trace.v`: the builder calls of each recorded call as a relation `logs`, written and read by the C70 store, give the compiler the same events (lookup by lookup); every line is at least 72 bytes |
| C58 | TrackedCounter, TrackedHistogram, log2_64 | same files: bits below the highest are ones after the shifts, the multiplication by cases; induction over histories |
| C59 | copy, memset, reallocate and prefetch of the ResourceManager with and without a camp resource, over the operations of all vendors; streams are queues of effects run oldest first, each at any time; allocators are oracles (their behaviour: C08-C36); the allocation map is a list (C01); calls without a stream do not wait for streams | `Async*.v`, `Props_Async.v`: simulation between the program and the one that waits after every call: the memory with all queued effects run is the memory of the latter; effects that do not conflict commute |
| C60 | Logger, OutputBuffer, umpire::log(); the operating system may refuse any character or flush; characters arrive at once; one thread | `Log*.v`, `Props_Log.v`: a relation "asked to write t" composed over insertions and messages |
| C61 | initialize_io, make_unique_filename, file_exists, directory_exists; order of construction and destruction of the static objects of io.cpp and of the ResourceManager | same files: pigeonhole over names; cases of initialize_io |
| C62 | data of out_of_memory_error and unknown_pointer_error; the strategy is an oracle | same files, by cases |
| C63 | NumaPolicy, numa.cpp, NumaMoveOperation, ResourceManager::move; mbind follows its manual page over pages bound to nodes, and may fail after binding some; HOST, pools and other allocators are oracles; contents are not modelled | `Place*.v`, `Props_Place.v`: invariant over histories that known allocations lie on pages of their own and on the node an independent account (`observe`) gives |
| C64 | AllocationAdvisor, AllocationPrefetcher and the operations they apply; vendor calls are recorded as hints and may fail | same files: induction over stacks of strategies; constructors by cases over all builds, platforms and kinds of advice |
| C65 | the sanitizer calls of AlignedAllocation, QuickPool and DynamicSizePool over the models of C08 and C10, a shadow byte for eight bytes as in the compiler's run time library; the parent is any that leaves the shadow of memory it has handed out alone (malloc under AddressSanitizer, or any without such calls) | `San*.v`, `Props_San.v`: invariant over histories with acts of others below and of clients on their own shadow; transparency by commuting every step with forgetting the shadow |
| C66 | the wrappers of wrapAllocator.cpp, wrapResourceManager.cpp, wrapUmpire.cpp, utilUmpire.cpp and the Fortran procedures over them; handles with the address of an object made by `new`, addresses used again; the library is any function from calls to outcomes that answers with the right C++ types; version numbers, memory usage, pointer_contains and pointer_overlaps pass straight through and are left out; handle variables start null (C leaves that to the program) | `Cf*.v`, `Props_Cf.v`: simulation of the C++ program, tokens of an ownership monitor against live objects |
| C67 | `allocate_..._array_Nd`, `deallocate_..._array_Nd`, array element order of the Fortran standard; overflow of the signed size wraps | `CfFacts.v`, `Props_Cf.v`: induction on the extents |
| C68 | `src/umpire/alloc/*.hpp` (malloc, posix_memalign, CUDA, HIP, SYCL, OpenMP), the resources over them, the SYCL device count and queue choice; vendors are oracles over the number of earlier calls, an answer counts only if it is fresh memory | `VendModel.v`, `VendSpec.v`, `VendFacts.v`, `Props_Vend.v`: one specification of a call per leaf, induction on histories, contract of a parent; queue = n-th element of a list of units |
| C69 | `isAccessibleFrom` and the platform of all resources, `getPlatform` of strategies, `NumaPolicy`'s constructor test, `is_accessible` | `VendFacts.v`, `Props_Vend.v`: against a description of machines, induction on the stack |
| C70 | json_file_store, event_json.hpp, the builders of event.hpp; of nlohmann's json.hpp `dump_escaped`, `dump_integer`, `dump`, the lexer, the parser with `json_sax_dom_parser` and the conversions used; `getline`, `fprintf` with `%s %p %ld %lld`, stdio's buffering | `JsonModel.v`, `StoreModel.v` against `JsonSpec.v` (RFC 3629 grammar, equality of values): the decoder's table against the grammar, tokens of a text, induction on values for the parser, on lines for the reader (`Utf8Facts.v`, `JsonFacts.v`, `ParseFacts.v`, `StoreFacts.v`); cut lines by monotonicity of lexer and parser (`TornFacts.v`); `Props_Json.v` |
| C71 | ReplayInterpreter::compareOperations and getLine over the tables of C57; fresh binary files, line numbers arbitrary | `Diff*.v`, `Props_Diff.v`: second invariant of the compiler, that the tables encode the steps of the program (`shape`, defined without the tool); the answer is then the prefix relation of shapes, for all pairs of programs; equal shapes give equal replays; moved programs have equal shapes |
| C72 | sqlite_database and quest_database; SQLite's `json` and any statement that is not the store's own are oracles, the literal is scanned | `Sql*.v`, `Props_Sql.v`: the text of an event without quotes has none, so that the statement is one literal; induction over records; lengths of the printed parts for the buffer; unambiguity of the lines by splitting at separators |
| C73 | the allocators of C28 to C31 with the registry: allocate, deallocate, ResourceManager::deallocate, release, coalesce, makeAllocator | `IsoSpec.v` (chain, state of one allocator, runs that are alike), `ParamFacts.v` (every strategy is parametric in its parent: related parents give related runs), `IsoFacts.v`, `Props_Iso.v`: the relation "equal outside the chain" gives the frame, "equal on the chain" the dependence; induction over the stack and over sequences |
| C74 | of every call the accesses to shared variables and the lock and unlock operations, without values; a strategy may use its members and its parent in any order and number; left out: logger, event recorder, backtraces, Allocator objects shared by threads, the vendor libraries | `RaceModel.v`, `RaceSpec.v` (what a race is; a summary of the variables and mutexes of each call), `RaceFacts.v`: every access of a trace happens with exactly the mutexes of the summary, invariant between threads and owners over all interleavings; ranks of mutexes for the deadlocks; `RaceWitness.v`: schedules that end in a race |
| C75 | HostSharedMemoryResourceImpl: constructor and destructor, one step per system call or atomic access, processes that fail or are killed at any point; the operations of C38 as single steps; memory is sequentially consistent, one resource per process | `ShmModel.v`, `ShmSpec.v`, `ShmFacts.v`, `Props_Shm.v`: invariant relating what each process does next to the object it works on, over all interleavings; a decreasing number of steps for "everybody gets in"; a closed set of hopeless states for the refutations |
| C76 | util/backtrace.inl (switch, recording, printing with and without symbols), runtime_error::what; one switch for each translation unit, as the static variable of an anonymous namespace; `dladdr`, `abi::__cxa_demangle`, `backtrace_symbols` are oracles, the locale is "C", pointers print as in libstdc++ | `BtModel.v`, `BtSpec.v`, `BtFacts.v`, `Props_Bt.v`: equality with an independently written sheet of lines, latching over all sequences of questions |
| C77 | util/MPI.cpp, umpire::initialize, get_communicator_for_allocator, what the processes do together in initialize_io (one step for looking, making, waiting); the processes share one communicator, directory and setting of logging | `MpiModel.v`, `MpiSpec.v`, `MpiFacts.v`, `Props_Mpi.v`: invariants over all sequences of calls and all interleavings; a closed set of hopeless states for the refutations |
| C78 | get_process_memory_usage(_hwm), get_device_memory_usage, find_pointer_from_name, the members of out_of_memory_error and unknown_pointer_error; `operator>>` of libstdc++ in the "C" locale (a variable that was not written is UB to read) | `UseModel.v`, `UseSpec.v`, `UseFacts.v`, `Props_Use.v`: equality for all texts of the given form |
| C79 | ReplayFile (header, mapping shared or private, destructor), ReplayInterpreter::buildOperations as far as the file goes, ReplayOperationManager::makeAllocator with --use-pool and --heuristic, the statistics; compiling and running are those of C57; of an event at which compiling stops nothing is kept | `ToolModel.v`, `ToolSpec.v`, `ToolFacts.v`, `Props_Tool.v`: simulation of the run with options by the run of C57 over a library that changes creations, and an invariant of the compiled file over all histories of sessions |
| C80 | AllocationMap::print, printAll and print_allocator_records over the map of C01-C03 and C40; the text of a backtrace is an oracle (C76) | `PrintModel.v`, `PrintSpec.v`, `PrintFacts.v`, `Props_Print.v`: from the walk of the map (C40) and the representation invariant of C03 |
| C81 | MemoryResourceTraits, getDefaultTraits and create of all factories, the traits in makeResource, get_default_resource_traits, getTraits of all strategies, and the readers of traits (prefetch, communicators, OpenMP copy and memset, SYCL prefetch); the vendors' answers are parameters; copying an int without a value is not counted as undefined, reading it is | `TraitsModel.v`, `TraitsSpec.v`, `TraitsFacts.v`, `Props_Traits.v`: case analysis over factories and names (C53), induction over towers |
| C82 | percent_releasable and percent_releasable_hwm of QuickPool and DynamicPoolList with the threshold in binary32 (round to nearest even on integers; no wider intermediate results, FLT_EVAL_METHOD 0) | `PercentModel.v`, `PercentSpec.v`, `PercentFacts.v`, `Props_Percent.v`: relative error of one rounding, then of the three together; agreement with Coq's SpecFloat on a list of values; the loop of C14 for every percentage between 0 and 100 |
| C83 | the counters of all allocators in the collections of C36, those under pools and wrappers included; NamingShim over any parent | `TreeModel.v`, `TreeSpec.v`, `TreeFacts.v`, `Props_Tree.v`: the invariant of C36 with, at every allocator, its counters against everything held from it; the refused mallocs are recorded in the heap for the statement |
| C84 | plot_allocations as a whole (pattern, reading, coalescing, scale, rectangles) on the text of C80; the first lookup of plot_allocator_traces | `PlotModel.v`, `PlotSpec.v`, `PlotFacts.v`, `Props_Plot.v`: the pattern and the numbers against declarative readings of them, then the text of C80 line by line; for traces the round trip of C70's JSON |
| C85 | register_external_allocation, deregister_external_allocation, hasAllocator, getAllocator(ptr), rm.deallocate on the whole system of C04-C10 | `ExtModel.v`, `ExtSpec.v`, `ExtFacts.v`, `ExtRun.v`, `Props_Ext.v`: histories with external registrations simulate histories without them (the registry differs by the external records), by induction over the history |
| C86 | make_device_allocator, destroy_device_allocator, DeviceAllocator::destroy, get_device_allocator on both sides, the macro UMPIRE_SET_UP_DEVICE_ALLOCATORS per translation unit, the destructor at the exit; allocators and copies to symbols are oracles | `MirrorModel.v`, `MirrorSpec.v`, `MirrorFacts.v`, `MirrorRun.v`, `Props_Mirror.v`: an invariant of histories says what is in use and what the arrays hold, hence what is found and what is refused; the view of the device by induction over the history |
| C87 | the counters of buildOperations, what every event adds, the rogue deallocations, the version, the printed summary with the leaked number; layout left out | `SummaryModel.v`, `SummarySpec.v`, `SummaryFacts.v`, `Props_Summary.v`: along the invariant of C57 every counter equals a count over the calls; the live allocations are listed without repetition and counted by induction |
| C88 | Allocator::allocate and deallocate as two steps each, the call of the strategy and the record of the event, for any threads and schedules; other recorded calls are one step; strategies give no address they have not got back, threads deallocate only what was returned, or null; reallocations and named allocations left out | `ThreadLogModel.v`, `ThreadLogSpec.v`, `ThreadLogFacts.v`, `Props_ThreadLog.v`: an invariant of the interleavings relates the log, what the strategies have given out and what each thread is about to do; the log then is a program in the sense of C57 |
| C89 | the static file name, the store and its stream in processes that fork: each process has a copy of what the stream holds and shares the file; the C library passes on any number of bytes at any time, the rest at exit; process ids are new and files not there before (C61); writing does not fail | `ForkModel.v`, `ForkSpec.v`, `ForkFacts.v`, `ForkRun.v`, `Props_Fork.v`: invariants over runs, one for logs used by one process and one for logs written in whole lines, which say what is in a file and what is held; reading by the lemmas of C70 |
| C90 | the lexer and the parser of json.hpp, `from_json` of event_json.hpp and `get_events` as in C70, on files of any bytes; `strtod` is an oracle for numbers with fraction or exponent or beyond 64 bits, of which only the integer part is kept | `LexSpec.v`, `GrammarSpec.v` (RFC 8259, RFC 3629 section 3, what the members of an event mean), `LexFacts.v`, `GrammarFacts.v`, `Props_Grammar.v`: the number automaton against the grammar by the texts that reach each state, longest match by completing any state; the parser by mutual induction on values one way, by strong induction on the number of tokens the other; objects as sorted lists with the last of equal names |

## 5. Findings

Statements of `properties.jsonl` that are false of the code as modelled.  Each has a theorem `..._refuted` with a concrete
history, unless marked (text).

| property | what goes wrong | where |
|----------|-----------------|-------|
| C01, C40 | `judy_last`/`judy_prv` return `&inner[0]` in a radix node of leaf cells: with 57 or more keys that differ in the last byte only, `findOrBefore` returns the value of another key and lookup of a live allocation fails | judy.c:905, 1089 |
| C40 | `judy_slot` returns an empty cell for an absent key whose remaining bytes are zero: `find(absent) != end()`, `erase(absent)` dereferences null | judy.c:509-531, MemoryMap.inl:132-169 |
| C40 | `insert(pair)` and `insert(key, value)` by reference report the opposite of whether they inserted | MemoryMap.inl:68-84 |
| C40 | assigning to the iterator that moved last leaves the Judy cursor where it was | MemoryMap.inl:268-290 |
| C03 | a record at address 0 makes the listing empty | AllocationMap.cpp:331-337 |
| C05 | a failed creation of an allocator leaves the request counted at the parent (no roll-back in `allocate_internal`) | AllocationStrategy.cpp:20-37 |
| C05 | an exhausted SlotPool returns null; the statistics are updated before registering null throws | SlotPool.cpp, Inspector.cpp:17-39 |
| C05, C06 | FixedPool and MonotonicAllocationStrategy override the getters: whole slots, bytes consumed since creation, capacity as watermark | FixedPool.cpp:189-202, MonotonicAllocationStrategy.cpp:50-60 |
| C35 | `ResourceManager::deallocate(nullptr)` throws although `Allocator::deallocate(nullptr)` is a no-op (Example C35_case) | ResourceManager.cpp:853-859 |
| C35 | 57 or more live zero-byte allocations are at consecutive addresses and violate the density condition of C01 (text) | AllocateNull.cpp |
| C08, C15, C16 | `aligned_round_up` wraps near 2^64: two live allocations at one address | AlignedAllocation.inl |
| C09 | the alignment is not checked to be a power of two | QuickPool.cpp |
| C10 | the aligned high-water mark counts the temporary allocation of a coalesce | QuickPool.cpp |
| C14 | `blocks_releasable(1)` and `percent_releasable(<100)` recurse for ever; `deallocate` can `std::terminate` | QuickPool.cpp |
| C16 | `deallocate` can throw out_of_memory after the memory has been given back (coalescing failed), with the default heuristic too; `coalesce` is noexcept and then terminates; a failed parent deallocation in `freeReleasedBlocks` leaves the counters lowered and the block linked (text) | DynamicPoolList.cpp:36-49, 124-137, DynamicSizePool.hpp:212-269 |
| C17 | the aligned high-water mark counts the temporary allocation of a coalesce | DynamicSizePool.hpp:271-278 |
| C19 | requests larger than the object size overlap when assertions are off; 0 objects per pool recurses for ever; the `noexcept` constructor terminates when the parent fails | FixedPool.cpp |
| C20 | the actual size is not lowered by release and adds the number of bitmap ints instead of bytes | FixedPool.cpp |
| C21 | interior pointers are accepted; a null `malloc` result is used; slots below 8 bytes are overrun by the link (text) | FixedMallocPool.cpp |
| C22 | the running total wraps; a parent failure leaves bytes charged | SizeLimiter.cpp |
| C23 | a refused request consumes capacity; the counter wraps and memory is handed out twice | MonotonicAllocationStrategy.cpp |
| C24 | a freed slot never serves another size; a slot is lost when the parent fails | SlotPool.cpp |
| C25 | multiplier 1 never finishes constructing; a class wrapping to 0 divides by zero | MixedPool.cpp |
| C26 | the total wraps near 2^64 | AlignedAllocator.cpp |
| C27, C28 | `makeResource("X::0")` also binds the name up to one character *before* the "::" ("HOST::0" binds "HOS", "DEVICE::0" binds "DEVIC"), silently replacing what it stood for; after `removeAlias` a second allocator of the same name can be made | ResourceManager.cpp:173-176 |
| C28 | creating "DEVICE" silently rebinds "DEVICE::0" if that was created first | ResourceManager.cpp:170-172 |
| C28 | `makeResource` of a name a factory accepts but `string_to_resource` does not ("MYHOST") throws after entering the name: the entry points to the destroyed resource | ResourceManager.cpp:169-179 |
| C28 | `removeAlias` of the name of a resource not created yet dereferences `end()` | ResourceManager.cpp:298-303 |
| C28 | a rejected `addAlias(name)` creates the resource `name` while formatting its message (text; modelled) | ResourceManager.cpp:288-291 |
| C27 | `makeAllocator` stops at one fixed id only; `makeResource` does not check, so the invalid id can be given out (text; modelled) | ResourceManager.inl:27 |
| C30 | when `::realloc` fails the record of the allocation has already been removed: the memory is leaked | HostReallocateOperation.cpp:34-41 |
| C04, C30, C34 | the owner's `deallocate` of a live allocation throws after the memory, the record and the statistics are gone (a DynamicPoolList whose coalescing fails); in `reallocate` and `move` the new allocation is leaked: its address is never returned | DynamicPoolList.cpp:36-49, GenericReallocateOperation.cpp:23-31, ResourceManager.cpp (move) |
| C30 | `reallocate(p, 0)` returns `p` before the zero-byte allocation, which can fail | ResourceManager.cpp:681-684 |
| C31 | `::realloc` does not update current size and watermark of HOST; a later deallocation can wrap the current size around | HostReallocateOperation.cpp:34-43 |
| C32 | the length is not checked against the source allocation; overlapping ranges are passed to `memcpy` | ResourceManager.cpp:384-412, HostCopyOperation.cpp |
| C38 | a second `allocate` of a name ignores the size and returns the first, possibly smaller block: the memory reaches into another name's block | HostSharedMemoryResourceImpl.hpp:197-202 |
| C38 | names are compared as C strings: "a\\0b" is found as "a", and never as itself | HostSharedMemoryResourceImpl.hpp:353-367 |
| C38 | rounding wraps: a request near 2^64 is granted a block of a few bytes | HostSharedMemoryResourceImpl.hpp:183-188 |
| C38 | a segment smaller than its 80-byte header gets a first block of almost 2^64 bytes | HostSharedMemoryResourceImpl.hpp:128 |
| C39 | under CUDA nothing is checked: ranges outside the arena | DeviceAllocator.cpp:72-82 |
| C39 | the counter and the request are cut to 32 bits: overlapping ranges after 4 GiB, a request of 2^32 + 8 is granted as 8 | DeviceAllocator.cpp:74 |
| C39 | under HIP a refused request stays counted; the next may wrap past the check and lie outside the arena | DeviceAllocator.cpp:74-78 |
| C39 | under HIP the check reads the counter again: a reset in between lets an outside range through, a later request of another thread fails one that fits | DeviceAllocator.cpp:76 |
| C42 | relative_fragmentation never returns with two or more records (iterators are not advanced); with none it increments the end iterator | allocation_statistics.cpp:16-30 |
| C43 | `sizeof(T) * n` wraps: 2^60 + 1 elements of 16 bytes get 16 bytes | TypedAllocator.inl:26-29 |
| C46 | a failed ftruncate or mmap leaves the file descriptor open | FileMemoryResource.cpp:75-92 |
| C46 | when remove fails the entry stays: a later mapping at that address is unmapped with the old length and the wrong file is removed | FileMemoryResource.cpp:96, 126-131 |
| C46 | the int file counter overflows; a zero-byte request always fails | FileMemoryResource.cpp:63, 85 |
| C48 | on the device a name matches any entry whose name is a prefix of it, including unused zeroed entries | device_allocator_helper.cpp:65-81 |
| C48 | the 65th device allocator and names of 64 characters are written past the end | device_allocator_helper.cpp:212, DeviceAllocator.cpp:34-38 |
| C48 | the array is not initialised: destroying or looking up touches entries never made | device_allocator_helper.cpp:203, 222-226 |
| C44 | names repeat after 2^64 allocations | NamingShim.cpp |
| C37 | two thread-safe allocators over one pool, or a thread-safe allocator and the allocator it wraps, do not exclude each other: the pool hands the same memory out twice | Allocator.cpp:17-26, ThreadSafeAllocator.cpp:23-31 |
| C37 | a deallocation through the wrong allocator hides the record from the owner for a moment, and the owner's call throws | Inspector.cpp:44-52 |
| C49 | an object returned twice is accepted: the reported size wraps and the object is lost; a null result of malloc for the objects is not noticed and addresses near 0 are handed out | FixedSizePool.hpp:41-53, 118-142 |
| C50 | no copy between two kinds of devices although the header promises all pairs; registering an operation for a pair already taken is silently ignored | MemoryOperationRegistry.cpp:191-205, MemoryOperationRegistry.hpp:46-49 |
| C51 | ~MonotonicAllocationStrategy and ~SlotPool give back memory the program still holds; ~SlotPool passes the negated length of a slot in use as a size and the current size of its parent ends wrong | MonotonicAllocationStrategy.cpp, SlotPool.cpp (destructors) |
| C51 | memory is never given back when the operation of an AllocationAdvisor or AllocationPrefetcher throws | AllocationAdvisor.cpp, AllocationPrefetcher.cpp (allocate) |
| C52 | an untracked SizeLimiter never lowers its total: with nothing live it refuses what fits | SizeLimiter.cpp, Allocator.inl:105-108 |
| C52 | below an untracked wrapper the current size of the parent never goes down | Allocator.inl:105-108, AllocationStrategy.cpp (deallocate_internal) |
| C53 | "DEVICE::1::FINE" and "DEVICE::1::COARSE" get the current device: the regular expression wants the number at the end | MemoryResourceTypes.hpp:117-121 |
| C53 | builds with and without CUDA read different devices from a name: "DEVICE::-1" is -1 or the current device, "DEVICE::1::2" is 1 or 2, "DEVICE::FINE" throws or is the current device | MemoryResourceTypes.hpp:112-121 |
| C53 | getAllocator("DEVICE") binds "DEVICE::0" to the current device, whichever it is | ResourceManager.cpp:172-174, MemoryResourceTypes.hpp:124-133 |
| C53 | the factories accept every name that contains their keyword: makeResource("NUMBER") would make unified memory (then throws in string_to_resource and leaves a dangling entry, see C28) | CudaUnifiedMemoryResourceFactory.cpp:19-26 |
| C54 | a request or deallocation that throws leaves the resource's device current instead of the program's; a resource "DEVICE" made later is for that device | CudaDeviceMemoryResource.cpp:24-52, HipDeviceMemoryResource.cpp:24-52 |
| C54 | cudaSetDevice is not checked: a resource for a device that is not there hands out memory of the current device | CudaDeviceMemoryResource.cpp:28-29 |
| C55 | constant memory: the offset is advanced before the check, so after one refused request every later one is refused and nothing live can be deallocated | HipConstantMemoryResource.cpp:36-44, CudaConstantMemoryResource.cu:46-55 |
| C55 | constant memory: a request near 2^64 bytes wraps the offset, is granted, and later allocations overlap live ones | HipConstantMemoryResource.cpp:37 |
| C55 | NO_OP: the counter wraps after 2^64 - 2^48 bytes and null is handed out | NoOpMemoryResource.cpp:30-35 |
| C56 | deallocate reads the length after erasing its entry; the slot by then holds the number of the next free slot, so munmap gets a wrong length: usually 1 page goes and the rest leaks; after an allocation of 4 GiB (or with more than 4096 live ones) pages of a neighbour go | NullMemoryResource.cpp:50-56, FixedMallocPool.cpp:111-117 |
| C56 | the result of mmap is not checked: MAP_FAILED is returned as an address | NullMemoryResource.cpp:34-43 |
| C56 | deallocate of a pointer not in the table dereferences null | NullMemoryResource.cpp:50-56 |
| C57 | memset and named allocations are recorded as operations, and the tool stops at them | ReplayInterpreter.cpp:118-163, ResourceManager.cpp:478-487, Allocator.inl:86-87 |
| C57 | after a reallocate that throws, no second event is recorded; the tool then takes every later allocation and deallocation for a part of it and drops them; an allocation of another thread between the two events is dropped, too | ReplayInterpreter.cpp:695, 735, 761, 771 |
| C57 | an event of coalesce between the two events of reallocate (a pool may coalesce in reallocate(p, 0)) overwrites the pending operation; the operation counted instead is all zeros and stops the run | ReplayInterpreter.cpp:804-817, 741-760 |
| C57 | coalesce of a pool named "x_base" is replayed on the pool "x" | ReplayInterpreter.cpp:364-373 |
| C57 | an AllocationAdvisor with device -1 (cudaCpuDeviceId) stops the tool or, without an accessing allocator, is replayed with one named ""; AlignedAllocator and NamingShim are unknown classes | ReplayInterpreter.cpp:439-490, 636-639 |
| C57 | a compiled file that was run keeps the pointers to its allocators: with statistics the next run reads through them, and a run that fails early deletes them again (text) | ReplayOperationManager.cpp:47-54, 225-243; ReplayFile.cpp:37-50 |
| C57 | a compiled file is used as long as its magic number and version fit, although the log may have changed since (text) | ReplayFile.cpp:109-129 |
| C57 | the lines of a log that was not written by the library may be shorter than an operation; the table then overruns its mapping (text; C57_room shows that recorded lines are long enough) | ReplayFile.cpp:135 |
| C58 | allocations of size 0 are counted among those of 2^63 bytes and more | ReplayOperationManager.cpp:75-99 |
| C58 | reallocations are not counted, so counters wrap when a reallocated block is freed; set_default_allocator forgets the histogram of the allocator (text) | ReplayOperationManager.cpp:174-191 |
| C59 | reallocation on a stream (CUDA, HIP) gives the old memory back while the copy from it is queued: the next allocation may get it and overwrite it first | GenericReallocateOperation.cpp:34-50 |
| C59 | reallocation with a resource of another vendor throws after the new memory was allocated, which is lost | GenericReallocateOperation.cpp:34-50, CudaCopyOperation.cpp:37-57 |
| C59 | errors of omp_target_memcpy are ignored | OpenMPTargetCopyOperation.cpp:18-37 |
| C60 | after one failed write nothing more is ever logged (badbit is not cleared) | OutputBuffer.cpp:33-51, Logger.cpp:56-64 |
| C60 | UMPIRE_LOG_LEVEL with a character outside ASCII: std::toupper of a negative char | Logger.cpp:24-29 |
| C61 | an existing file that can be written but not read is taken as absent and truncated | io.cpp:128, 169-173 |
| C61 | processes with one pid on two hosts choose the same file in a shared directory (no exclusive creation) | io.cpp:156-167 |
| C61 | a missing UMPIRE_OUTPUT_DIR stops programs that ask for no log | io.cpp:92-124 |
| C61 | the static ofstream is opened once: after a failure initialising never succeeds again | io.cpp:128-134 |
| C61 | at exit ~OutputBuffer of the log flushes the buffer of a file stream already destroyed (the buffer is constructed first); finalize_io, which would avoid it, is declared with a parameter and defined without, so that calling it does not link (text) | io.cpp:57-67, 128, 140; io.hpp:44; OutputBuffer.cpp:68-77 |
| C62 | out_of_memory_error of a named allocation says 0 bytes of allocator -1 | Allocator.inl:68-89 |
| C62 | unknown_pointer_error::get_pointer is never set: indeterminate | error.hpp:78-96, AllocationMap.cpp:176-193 |
| C63 | an allocation whose mbind fails (every one over a pool, whose blocks do not begin on pages) keeps the parent's memory for ever, and the bitmask | NumaPolicy.cpp:47-56, numa.cpp:38-46 |
| C63 | after a move to a NumaPolicy the record names the old allocator | ResourceManager.cpp:778-809 |
| C63 | so a move back to the policy it was allocated from does nothing: the memory stays on the other node | ResourceManager.cpp:764-775 |
| C63 | a move of a pointer inside an allocation to a NumaPolicy is accepted and binds memory beyond the end of the allocation | ResourceManager.cpp:786-796 (compare 812-814) |
| C63 | binding works on pages: allocations that share one move along | numa.cpp:42 |
| C63 | memory given back by a policy stays bound; HOST hands it out again | NumaPolicy.cpp:58-61 |
| C63 | no MOVE is registered between nodes of devices, nor for HIP | MemoryOperationRegistry.cpp:70-78 |
| C63 | a node that does not exist is taken for one of a device: the policy is made and every allocation throws | NumaPolicy.cpp:32-44 |
| C64 | AllocationPrefetcher on SYCL reads through a null record in every allocation | AllocationPrefetcher.cpp:31, SyclMemPrefetchOperation.cpp:18 |
| C64 | on devices without concurrent managed access the prefetcher does nothing and says nothing | CudaMemPrefetchOperation.cpp:36 |
| C64 | the accessing allocator is ignored in builds without CUDA | AllocationAdvisor.cpp:36-42 |
| C64 | an advisor may be made of any registered operation; each allocation then throws and keeps its memory | AllocationAdvisor.cpp:34, MemoryOperation.cpp:33-37 |
| C65 | with an alignment below eight a freed allocation that shares a group of eight bytes with a live one stays accessible: the use after free is not reported | QuickPool.cpp:149, DynamicSizePool.hpp:347 |
| C65 | a pool returns its blocks poisoned; a parent that makes no sanitizer calls (FixedPool, SlotPool, MixedPool's fixed pools) hands them out again so, and valid accesses are reported | AlignedAllocation.inl:40-47, FixedPool.cpp:124-150 |
| C66 | `copy_all(src, dst)` and `copy_with_size(src, dst, n)` of C and Fortran copy from dst to src: they call `copy(dst, src)` with their arguments in the order given | wrapResourceManager.cpp:490-509, wrapfumpire.f:1934-1955, ResourceManager.hpp:203 |
| C66 | an exception leaves an `extern "C"` function: the program ends, or the Allocator object made before the call is lost | wrapResourceManager.cpp:48-49 |
| C66 | handles are plain structs: deleting a copy of a deleted handle is undefined, using one may reach another allocator made at the same address, overwriting one leaks | wrapAllocator.cpp:39-47 |
| C66 | Fortran `==` compares addresses of Allocator objects: two handles of one allocator differ, a deleted one differs from itself | wrapfumpire.f:2110-2119 |
| C66 | Fortran cannot say names that end in blanks, C none with a NUL | wrapfumpire.f:1728 |
| C67 | the size of an array wraps: 65536^4 elements are given no byte; negative extents, which mean no elements, ask for memory; too many extents are not refused | genumpiresplicer.py:59-66 |
| C68 | HIP managed memory that cannot be advised coarse grained is lost: the allocation throws and keeps the memory | HipMallocManagedAllocator.hpp:59-65 |
| C68 | the result of hipGetDevice is not looked at: without a current device an uninitialised number is used | HipMallocManagedAllocator.hpp:54-59 |
| C68 | without coherence in the build managed memory is silently not coarse grained, where the other HIP leaves throw | HipMallocManagedAllocator.hpp:52-67, HipMallocAllocator.hpp:47-63 |
| C68 | SYCL and OpenMP report lack of memory as runtime_error, so handlers for out_of_memory_error do not see it | SyclMallocAllocator.hpp:37-38, OpenMPTargetAllocator.hpp:38-39 |
| C68 | a request for no bytes: null and success from CUDA and HIP; malloc's null is an exception whose kind depends on an errno left by an earlier call | CudaMallocAllocator.hpp:33-46, MallocAllocator.hpp:43-48 |
| C68 | SYCL: devices of all platforms are offered as DEVICE::n, the factories look at one platform; the others have a null queue, which allocation dereferences | MemoryResourceRegistry.cpp:193-218, SyclDeviceResourceFactory.cpp:44-69, SyclDeviceMemoryResource.inl:30 |
| C69 | HIP device memory is reported accessible from the host, host memory from OpenMP devices, on every machine | HipDeviceMemoryResource.cpp:56, MallocAllocator.hpp:85 |
| C69 | memory that can be reached is not reported: host memory by HIP and SYCL devices; with NUMA in the build HOST is not even reported for CUDA or OpenMP devices | MallocAllocator.hpp:83-91, PosixMemalignAllocator.hpp:67-73 |
| C69 | FILE has no platform, so its memory is not accessible from its own platform; NO_OP has the host's and is not accessible from it | FileMemoryResourceFactory.cpp:33, NoOpMemoryResource.cpp:52-57 |
| C69 | a NumaPolicy for a device node has the device's platform while its memory is not reported accessible from there | NumaPolicy.cpp:32-44 |
| C70 | the name of a named allocation is printed without escapes: a quote, a newline or a byte that is not UTF-8 makes `get_events` throw for the whole file; a chosen name changes other fields of the event or adds events; a null byte cuts it | json_file_store.cpp:53-65 |
| C70 | the typed functions do not open the store: the first record by way of one of them prints to a null stream | json_file_store.cpp:39-78 |
| C70 | `get_events` gives the events once, then none; on a store for writing it empties the file and gives none; `insert` into a store for reading loses the event without an error | json_file_store.cpp:80-108, 143-152 |
| C70 | a log whose last line is cut (the program was killed) gives no event at all | json_file_store.cpp:93-99 |
| C57 | creating an allocator whose name is not UTF-8 is not recorded (the recorder throws, C70), its allocations are; the tool stops at the first of them | event_json.hpp:22-33, ReplayInterpreter.cpp:675-684 |
| C71 | numbers of operations that differ are printed only: a left log that goes on after the right one has ended compares equal; with the arguments swapped they differ | ReplayInterpreter.cpp:266-271, 313 |
| C71 | if the left log is an initial part of the right one, the tool asks for line 0 of the left log; `lineno - 1` wraps and getLine goes round 2^64 - 1 times: the tool does not come back | ReplayFile.cpp:67, ReplayInterpreter.cpp:343-345 |
| C71 | a reallocation that threw stands in the cell behind the last operation; compared with a log in which it came back, the two are equal | ReplayInterpreter.cpp:735-748, 313 |
| C71 | a binary file compiled again (older log or --recompile) is not truncated and the entries of allocators are not cleared, so that old bytes of argv make equal logs differ (text) | ReplayFile.cpp:30-45, ReplayInterpreter.cpp:303-309 |
| C72 | a single quote in any name ends the SQL literal: syntax error and exit(1) in the program; two quotes come back as one | sqlite_database.cpp:39, 61 |
| C72 | the name of an allocation can carry any SQL statement, which is executed | sqlite_database.cpp:87-99 |
| C72 | sprintf into 512 bytes: names of 288 bytes or more overflow the stack buffer (up to 200 are safe) | sqlite_database.cpp:85-97 |
| C72 | names of allocations can make a row that is no event; the exception of the reader passes through the C frames of SQLite | sqlite_database.cpp:124-135 |
| C72 | an output directory that cannot be written stops the program with exit(1): the failure of sqlite3_open is only printed, the next statement fails (text) | sqlite_database.cpp:46-55 |
| C72 | quest store: numbers cut to int, comma after the last of several numbers, no escapes, strings and tags alike, categories and all allocations dropped | quest_database.cpp:31-85 |
| C74 | two thread-safe allocators, each with a pool of its own, race on the counters of HOST, which both pools take memory from; so do two threads that use HOST directly | AllocationStrategy.cpp:20-55, Inspector.cpp:17-56 |
| C74 | the pool for zero bytes is shared by all allocators and has no lock: allocations of zero bytes through different thread-safe allocators race, and an allocation of zero bytes races with a deallocation of any size | AllocateNull.cpp:22-43 |
| C74 | getCurrentSize and the like take no lock, also on a thread-safe allocator; release and coalesce take none either, and on a ThreadSafeAllocator itself they do nothing | Allocator.cpp:28-67 |
| C74 | makeAllocator locks a mutex that getAllocator, isAllocator, the aliases and getAllocatorNames do not; the constructor of a pool made over a thread-safe allocator allocates from it without its lock | ResourceManager.inl:23, ResourceManager.cpp:188-313 |
| C74 | getAllocator of a resource and getDefaultAllocator write when they are first used, without a lock | ResourceManager.cpp:188-206, 252-262 |
| C74 | get_allocator_records goes through the map without its lock; getSize and ResourceManager::deallocate read a record after the lock has been released | Umpire.cpp:50-60, ResourceManager.cpp:853-890 |
| C75 | a maker that fails or is killed before the segment is set up leaves the name behind: all others, now and later, spin without end | HostSharedMemoryResourceImpl.hpp:136-156 |
| C75 | a first process that asks for 0 bytes, or for 2^63 or more, gets an exception and makes all others spin without end | HostSharedMemoryResourceImpl.hpp:92, 98 |
| C75 | every process unlinks the name as it leaves, whoever still uses the segment: a newcomer gets another segment, and the unlink of a former process takes away the name of the new one | HostSharedMemoryResourceImpl.hpp:170 |
| C75 | the requested size is ignored, without a message, when the segment exists | HostSharedMemoryResourceImpl.hpp:133-148 |
| C75 | the mutex is not robust: a process killed inside an operation stops all operations of all processes for ever | HostSharedMemoryResourceImpl.hpp:102-117 |
| C76 | any value that holds "on", also "none", switches backtraces on | backtrace.inl:48 |
| C76 | `std::hex` is never taken back: after the first symbol frame 10 is called a, frame 16 is called 10 | backtrace.inl:83, 95 |
| C76 | the offset into the function is cut to 32 bits | backtrace.inl:95 |
| C76 | when `backtrace_symbols` has no memory it gives null, which is read: an out-of-memory error cannot be reported | backtrace.inl:77, 103 |
| C76 | every translation unit has its own switch: recorded while off and printed while on, an empty vector is indexed | backtrace.inl:39-57, 77 |
| C77 | initialize_io: when rank 0 makes the directory before another rank has looked, that rank finds it and does not go to the barrier, where the others wait for ever | io.cpp:91, 119 |
| C77 | when rank 0 cannot make the directory it throws, the others wait for ever | io.cpp:97-119 |
| C77 | umpire::initialize before MPI_Init initialises nothing and makes every later call do nothing | Umpire.hpp:23-40 |
| C77 | without MPI finalize sets rank and size to -1 while the process counts as initialised and cannot be initialised again | MPI.cpp:58-68 |
| C77 | get_communicator_for_allocator ignores the communicator of all but the first call | Umpire.cpp:239-260 |
| C78 | get_process_memory_usage reads a variable without a value when /proc/self/statm is missing or short; the high water mark when the line has no number | Umpire.cpp:139-140, 159-163 |
| C78 | get_device_memory_usage of a device that does not exist gives the use of the current device | Umpire.cpp:184-190 |
| C78 | find_pointer_from_name casts whatever is behind the allocator without a check (IPC build); an unknown name gives null without an error | Umpire.cpp:213-220 |
| C78 | the out_of_memory_error of a named allocation says 0 bytes, allocator -1 | Allocator.inl:76-80 |
| C78 | unknown_pointer_error::get_pointer always reads a member that nobody has written | error.hpp:92-103, AllocationMap.cpp:191 |
| C79 | a session stopped while compiling leaves a file with a valid header; the next session replays only the part compiled, and ends well | ReplayFile.cpp:54-55, 114-125, ReplayInterpreter.cpp:163 |
| C79 | the compiled file of an older log is used for a log that has changed since | ReplayFile.cpp:109-129 |
| C79 | `--recompile --use-pool` writes the other class into the compiled file: later sessions without options create the other pool | ReplayFile.cpp:37-50, ReplayOperationManager.cpp:324-333 |
| C79 | after `--recompile` the statistics of the next session, forced or not, go through pointers to allocators of the first | ReplayOperationManager.cpp:47-54, 225-283 |
| C79 | `--heuristic` is dropped silently for pools that are not tracked | ReplayOperationManager.cpp:534-542, 666-669 |
| C79 | `--skip-operations` changes nothing, because copies are never compiled; heuristics of the recorded program are not replayed (text) | ReplayInterpreter.cpp:134-139, 512, 533 |
| C80 | with a record at the null address nothing is printed of any allocation | MemoryMap.inl:240-245, AllocationMap.cpp:286 |
| C80 | `print` goes through the map without its mutex (text) | AllocationMap.cpp:284-312 |
| C81 | the traits of NO_OP do not say what it is | NoOpResourceFactory.cpp:46 |
| C81 | the id in the traits of HOST, UM, PINNED, FILE and SHARED is never given a value | MemoryResourceTraits.hpp:21, 35 |
| C81 | copying between SHARED and an OpenMP device reads that id | OpenMPTargetCopyOperation.cpp:21-22 |
| C81 | the default traits of "DEVICE::1" have the id of device 0; the size stays that of device 0 when the resource is made | CudaDeviceResourceFactory.cpp:44-59, HipDeviceResourceFactory.cpp:42-49 |
| C81 | unified memory of SYCL can be prefetched to device 0 only | SyclMemPrefetchOperation.cpp:18-20, SyclUnifiedMemoryResourceFactory.cpp:96 |
| C82 | the threshold is off by the error of single precision: 52 of 100 bytes count as 53 percent, 18119395 of 33554435 bytes (54.0000003 percent) do not count as 54 percent | QuickPool.cpp:374-378 |
| C82 | with any percentage between 1 and 99 there is a QuickPool of two blocks in which a deallocation never returns | QuickPool.cpp:139-195, 312-346 |
| C83 | a pool that is refused a block, releases and then gets it leaves the refused request counted at its parent for ever, although the program saw no failure | AllocationStrategy.cpp:20-30, QuickPool.cpp:61-82 |
| C83 | NamingShim gives its memory back as 0 bytes: the parent's current size never falls (HOST reports n bytes in no allocation) | NamingShim.cpp:33-36 |
| C84 | a range's end is printed exclusive and read inclusive: adjacent allocations are not coalesced, and those one byte apart are, painting the byte between | plot_allocations:13-20, Umpire.cpp:36-48 |
| C84 | two allocations of an allocator more than 10000 GB apart (heap and mmap on 64-bit Linux) make the script fail with IndexError; so does an allocator without allocations | plot_allocations:13-33, 74 |
| C84 | each allocator is drawn relative to its own lowest address, so the overlay of the cookbook does not show which block a pool's allocation lies in | plot_allocations:68-79, docs/sphinx/cookbook/plot_allocations.rst |
| C84 | a name of an allocation containing a line break can forge a record | Umpire.cpp:36-48, plot_allocations:6 |
| C84 | plot_allocator_traces looks for `event`, which no line of the logs of this version has: KeyError for every log | plot_allocator_traces:12 |
| C85 | get_allocator_records lists external memory with the allocator its record names, which does not count it | Umpire.cpp:50-60, 263-277 |
| C85 | Allocator::deallocate accepts externally registered memory: the statistics wrap below zero (2^64 - 1 allocations), a resource passes the pointer to free | Inspector.cpp:41-60 |
| C85 | a record whose `ptr` is not the registered address is accepted: at a higher key nothing is found, at a lower key addresses before the memory count as part of it (with assertions on, the lookup aborts instead) | Umpire.cpp:263-277, AllocationMap.cpp:200-229 |
| C85 | a refused deallocation rewrites the `ptr` of such a record | Inspector.cpp:51 |
| C85 | deregister_external_allocation withdraws an allocation of Umpire: still counted, no longer freeable | Umpire.cpp:279-287 |
| C85 | with events a record without a strategy dereferences the null pointer; without events it is accepted | Umpire.cpp:265-273 |
| C85 | external memory registered inside an allocation hides the rest of the allocation | AllocationMap.cpp:200-229, ResourceManager.cpp:335-340 |
| C86 | the array of device allocators is never given back; every destruction and new device allocator adds another one | device_allocator_helper.cpp:202, 220-228 |
| C86 | after destroy_device_allocator and a new device allocator, device code still looks into the old array: it finds the destroyed ones, whose memory is freed, and not the new ones, because the macro copies the pointer only once in a translation unit | device_allocator_helper.hpp:74-91, device_allocator_helper.cpp:215 |
| C86 | if the counter of a device allocator cannot be allocated its memory is lost | DeviceAllocator.cpp:22, 29 |
| C86 | a failed copy to the device symbol is not noticed nor repeated: the device dereferences null | device_allocator_helper.hpp:79-81 |
| C86 | the public DeviceAllocator::destroy() leaves the entry in the table: it is still found; destroy_device_allocator throws at it and gives nothing after it back; at the exit the program is terminated | DeviceAllocator.cpp:59-70, device_allocator_helper.cpp:95-100, 220-228 |
| C70 | a reader that has seen the end of the file never sees what is appended; after an exception the events before the refused line are lost and the next call goes on behind it | json_file_store.cpp:80-108 |
| C68 | with SYCL getNumDevices counts the parts that a GPU may be divided into, on one platform; the registry counts those that it has, on all: numbers below getNumDevices are no devices, or devices are missed | ResourceManager.cpp:942-964, MemoryResourceRegistry.cpp:190-218 |
| C87 | "leaked" is the number of allocations less that of all deallocations, also the ignored ones: deallocating null, which the library allows and records, hides a leak, and a program without leaks prints 18446744073709551615 | ReplayInterpreter.cpp:120-124, 178-186, Allocator.inl:93-101 |
| C87 | every reallocation is counted twice, once for each of its two events | ReplayInterpreter.cpp:140-142, ResourceManager.cpp:547-567, 607-628 |
| C87 | the numbers of the version are not initialised; the summary of a log without a version event reads them | ReplayInterpreter.hpp:50-52, ReplayInterpreter.cpp:181 |
| C88 | a deallocation is recorded before it happens: a log read, or cut, in between says that memory is free which is not | Allocator.inl:93-110 |
| C89 | events that the stream of a log held at a fork are in the log twice when the child exits, even if the child does not use the library; the replay tool stops at such a log | json_file_store.cpp:30-78 (no fflush, no atfork) |
| C89 | parent and child write to one file: a line of one can be cut by the other's and then the whole log cannot be read | json_file_store.cpp:30-78 |
| C89 | a child has the log of its parent, not one with its own process id | recorder_factory.cpp:37-38 |
| C90 | a line may have anything behind a null byte; a category that there is not is read as an operation; a negative size is read modulo 2^64 and a time beyond a long too | json_file_store.cpp:93-99, event_json.hpp:16-20, 35-53 |
| C90 | a number with an exponent that no word can hold (1e30) is converted to one, which is undefined, instead of being refused | json.hpp:3975-4006, event_json.hpp:43-52 |

## 6. Wrong programs

`seeded/LOG.jsonl` has one line per edit of a definition that was tried.  The edits chosen by hand name the claim they break.
Those with ids that start with `auto-` were generated (an operator, a constant, a branch or a wrap is changed); their
`lemmas_failed` is the first proof that fails and `theorems_failed` lists the property theorems that rest on it.  An edit with
nothing failed survives, its note says why or that no theorem tells it from the original; edits that do not type-check are left out.
