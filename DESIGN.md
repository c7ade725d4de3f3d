# Formal model of GMLC-TDC/containers in Coq 8.16.1

Everything is in `rocq/theories`. For each group of classes there is a model (`*Model.v`), a specification that does not
mention the model's state (`*Spec.v`), proofs, and one or more `Props_*.v` files that hold the theorems named in
`MANIFEST.json`, a concrete case beside each, and `Print Assumptions` at the end.

## Method

* Sequential containers are executable Gallina state machines over explicit memory (byte lists, block heaps, pointer
  tables). Every operation returns an outcome `Ok` / `Throw` / `UB`: out-of-bounds accesses, reading indeterminate values,
  destroying slots that hold no element, double frees and null dereferences are results, not assumptions. Properties are
  refinements to lists and maps over *all* histories, by induction over the list of calls; where several objects matter
  (ownership, moves, copies) over all programs with any number of objects.
* Concurrent containers are small-step machines: one step per lock acquisition or release, atomic operation,
  condition-variable operation or access to protected data; any number of threads, any schedule, spurious wakeups.
  Properties are invariants of all schedules; linearizability is stated both as "the history is one of the generic atomic
  object" (`Conc.v`) and as Herlihy and Wing's definition (`Herlihy.v`).
* A property the code violates gets a `..._refuted` theorem with a concrete history, and `..._partial` theorems giving the
  guard under which it holds. Where possible the guard is shown to be exact.

| Properties | Classes | Model files | Method |
|---|---|---|---|
| C01-C06 | CircularBufferRaw, CircularBuffer | `CircModel`, `CircBufModel` over `Heap` | refinement to a list of messages under a guard; guard shown tight; ownership over programs with any number of buffers |
| C07-C12 | StackBufferRaw, StackBuffer | `StackModel` over `Heap` | refinement to a list of blocks; ownership as above |
| C13-C19 | StableBlockVector, BlockIterator | `BlkHeap`, `BlkIter`, `VecModel` | refinement to a list, location map, element lifetime ledger |
| C74-C75 | int arithmetic of the two buffers | `StackInts`, `CircInts` | list of the ints each call computes, beside the models |
| C104 | CircularBuffer and StackBuffer out of memory | `BufMem`, `Props_BufMem` | each call with a flag; runs are compared with runs of `CircBufModel` and `StackModel` without the failed calls |
| C105 | noexcept and memory requests | `NoAlloc`, `Props_NoAlloc` | the counter of allocations of the heap before and after each call |
| C100, C101 | StackBuffer: pointers and alignment | `StackPtrs`, `Props_Ptrs` | lists of the pointers formed and records accessed by each call; invariants of C07 and C12 |
| C102 | CircularBuffer: pointers | `CircPtrs`, `Props_Ptrs` | list of the pointers formed; an invariant of every execution without undefined access |
| C20-C25 | StableBlockDeque | `DeqModel` | same |
| C109 | pointers copied when growing | `BlkCost`, `BlkCostF`, `BlkCostP`, `Props_Cost` | instrumented copies of the block checks, proved to do the same |
| C110 | elements reversed by the queues | `ConcCost`, `SqCost`, `BqCost`, `Props_QueueCost` | sum over the steps C5 of a run; potential argument |
| C111 | getWorkerCount | `WqWorkers`, `Props_Wq9` | history invariant on top of `WqLive` |
| C112 | memory of the buffers given back | `Leak`, `CircLeak`, `StackLeak`, `BufLeak`, `Props_Leak` | each block of positive size is `data` of one buffer: invariant of all steps, failing ones included; no condition on the state |
| C113 | apply, modify, transform left by an exception | `MapVisit`, `Props_Visit` | the loop of C36 with a function of the call number and the element that may throw; specification `visited` |
| C114 | addWorkBlock without workers left by an exception of execute() | `WqExec`, `Props_Wq10` | the machine of C56 with one more action that ends a call between the start of the work and `finished = true`; specification `given`, `to_run` |
| C115 | implicit and defaulted copies, moves, destruction of MappedVector, DualMappedVector, MappedPointerVector, DualMappedPointerVector | `CopyModel`, `CopyProofs`, `CopyFinal`, `Props_Copy` | programs over many containers that share one memory of blocks; specification `cs_run`: one value of its own per container |
| C116 | all of WorkQueue: accesses to data that is not atomic | `WqRace`, `Props_Wq11` | access lists `wq_acc`, checked against the steps; vectors of the queues, std::thread objects, finished flags |
| C117 | MappedPointerVector, DualMappedPointerVector: the objects behind the unique_ptrs | `OwnModel`, `OwnProofs`, `OwnWorld`, `Props_Own` | objects by address, destruction of a dead object undefined; the containers' results are those of `MapModel`/`DualModel` (`C117_defined_*`) |
| C118 | SimpleQueue, BlockingQueue, BlockingPriorityQueue used by element destructors and popOrCall callbacks | `NestModel`, `NestSq`, `NestBq`, `Props_NestSq`, `Props_NestBq` | nested calls over `SqModel` and `BqModel`, each a call of its own (refinement `nrun_flat`); locking a mutex the thread already holds is waiting for ever |
| C119 | WorkQueue used by the destructors of blocks thrown away by closeWorkerQueue | `NestWq`, `Props_NestWq` | `NestModel` over `WqModel`; user code runs where `dropped` grows |
| C120 | apply/modify/transform with functions that use the container | `MapNested`, `Props_MapNested` | functions are programs of reads and writes of their element and calls; the loop holds the iterators of the time it began |
| C121 | move assignment to a blocking queue in use | `BqAssign`, `Props_BqAssign` | executions with assignments between the steps of `BqModel`; the assignment is one step, possible when both locks are free |
| C122 | move assignment to a SimpleQueue in use | `SqAssign`, `Props_SqAssign` | as C121; the sources are the queues of `sq_reach` |
| C123 | WorkQueue constructor | `WqCtor`, `Props_WqCtor` | requests for memory and threads may be refused; what the workers do meanwhile is left out |
| C124 | a queue moved onto itself | `Props_SqSelf`, `Props_BqSelf` | as C121 and C122; vectors moved onto themselves keep their elements or are emptied |
| C108 | arguments inside the container | `BlkAlias`, `Props_Alias` | slots and iterators read when the code reads them |
| C107 | iterators against const_iterators | `IterMix`, `Props_IterMix` | the iterators of C17, each equal to one constructed now |
| C26-C29, C34, C36 | MappedVector, MappedPointerVector, StringMappedVector | `MapStore`, `MapModel` | per-call laws in every reachable state, exact guards of removal |
| C96 | WorkQueue when memory runs out | `WqThrow`, `Props_Wq8` | every execution with exceptions has the history and state of one without; progress, termination |
| C95 | WorkQueue used by its own work | `WqNest`, `Props_Wq7` | refinement to C56/C57/C64 for nested calls, progress, bounds |
| C94 | steps of the blocking queues | `BqBound` | potential: steps left, pushes that may still notify |
| C93 | CircularBufferRaw, empty | `Props_Circ2` | exact acceptance condition after any calls |
| C92 | WorkQueue destructor | `WqDtor` | every interleaving; bound and progress from C57 |
| C90, C91 | one WorkBlock, several threads | `WbConc` | stepwise simulation by an ideal block over calm schedules; a stable lost state |
| C89 | self assignment | `SelfAssign`, `SelfBlock` | programs before and after; exact condition for the block containers |
| C88 | removals of StableBlockDeque out of memory | `DeqThrow2` | state after the exception, from every reachable state |
| C86 | StableBlockDeque moved from | `DeqMoved` | call by call against a new deque, then whole histories |
| C82, C83 | iterators held while the container changes | `VecIterStable`, `DeqIterStable` | which table of blocks an iterator refers to, and whether it still exists |
| C78-C80 | exceptions in the mapped vectors | `MapThrow`, `MapThrow2` | state left behind related to the specification, then the history theorems |
| C81 | exceptions while storing text | `StrThrow` | as C35, C60 |
| C76-C77 | memory held by the block containers | `BlkMem` | invariant on the counters, and of which blocks exist |
| C30-C33 | DualMappedVector, DualStringMappedVector, DualMappedPointerVector | `DualModel` | same |
| C35 | text of the keys in the two string classes | `StrModel` | invariant over programs with any number of containers |
| C37 | mapOps.hpp | `MapOps` | law |
| C38-C41 | SimpleQueue | `SqModel` | invariant, forward simulation, step bounds |
| C42-C47, C59 | BlockingQueue | `BqModel` (`bp = false`) | backward simulation, wake-up invariants |
| C84, C85 | SimpleQueue when elements throw | `SqThrow`, `SqThrow2` | machine with exceptions over the machine of C38, forward simulation |
| C48-C51 | BlockingPriorityQueue | `BqModel` (`bp = true`) | same |
| C87 | blocking queues moved | `BqModel.bq_move` | the theorems of C42-C49 from any state at rest |
| C71-C73 | the blocking queues when elements throw | `BqThrow` over `BqModel` | erasure to the machine without exceptions |
| C40, C45, C52, C91 | lists of accesses | `Props_Access` | each step compared on states that differ outside its list |
| C52-C53 | AirLock | `AirModel` | forward simulation; no-lost-wakeup invariant |
| C103 | uses of arguments | `MoveOnce`, `Props_Move` | the machine of `Conc` with a counter; an invariant of the program points |
| C69-C70 | AirLock, release/acquire memory | `AirWeak` | views into the modification order of the flag; forward simulation, backward simulation for synchronised calls |
| C97 | AirLock, exceptions | `AirThrow`, `Props_Air3` | forward simulation of the airlock with exceptions by that without; counterexamples |
| C98 | AirLock, steps | `AirBound`, `Props_Air3` | step measures; the atomic slot between two states at rest |
| C54-C57 | WorkQueue | `WqModel` over `SqModel` | solo runs of getWorkBlock, counting invariants, step bound, progress |
| C58 | WorkBlock | `WbModel` | simulation by an ideal block over all programs |
| C106 | getReturnVal when works throw | `WbOut`, `Props_Wb2` | results in futures are those of works that ran, an invariant of all programs |
| C60-C62 | pushes of the block containers left by an exception | `VecThrow`, `DeqThrow`, `DeqThrow2` | state after the exception, from every reachable state |
| C58, C62, C71, C84, C91 | where exceptions can start, what a push asks for, what running a task modifies | `Props_Throw4` | cases of the steps; these pin the parts of the models that only take executions away when wrong |
| C99 | block containers, assignment left by an exception | `BlkAssign`, `BlkCtor`, `Props_Throw3` | the call as its first part and the rest; invariants of C13 and C20 |
| C63 | WorkQueue: priorities and order with many threads | `WqPrio` | every interleaving, from construction |
| C64-C65 | WorkQueue: work is done while the queue is open | `WqOpen`, `WqDrain` | every interleaving, from construction; timeouts are scheduler choices |
| C66-C68 | WorkQueue: isEmpty and numBlock, one thread per block, after close | `WqMisc` | every interleaving, from construction |

## Trusted base

1. Coq 8.16.1's kernel (`coqc`; no `-vos`, no switched-off checks, no plugins of our own), including `vm_compute`.
2. `Print Assumptions` of every theorem named in `MANIFEST.json` says *Closed under the global context*: no axioms, neither
   our own nor any library's. Libraries used: Coq's standard library and std++.
3. That the models say what the C++ says. Every definition cites the lines it models. What is assumed about the language
   and the standard library is listed below.

### Modelled

All of CircularBuffer.hpp, StackBuffer.hpp, StableBlockVector.hpp, StableBlockDeque.hpp, BlockIterator.hpp, MappedVector.hpp,
MappedPointerVector.hpp, StringMappedVector.hpp, the three Dual*.hpp, mapOps.hpp, SimpleQueue.hpp, BlockingQueue.hpp,
BlockingPriorityQueue.hpp, AirLock.hpp and WorkQueue.hpp, except as listed next. Calls that differ only in how an argument is
passed (const reference, rvalue, emplace) are one call. MapTraits.hpp only selects types.

### Not modelled, or simplified

*Language and library*
* Memory never runs out and `new` does not throw. Element operations (construction, copy, move, comparison) do not throw. Exceptions: C60-C62 model pushes of the block containers whose element constructor or memory request throws, and C88 removals from StableBlockDeque whose memory request throws; C71-C73 the same for the blocking queues and C84-C85 for SimpleQueue, C96 for WorkQueue, and C97 for AirLock; C99 assignments and constructors of the block containers; C104 CircularBuffer and StackBuffer out of memory; C78-C81 and C113 calls of the mapped vectors left by an exception.
* The models check *accesses*. Forming a pointer outside its array (as in StackBuffer's `origin + dataSize - 8`) and unaligned
  access to the index area are not errors in them; C100-C102 list the pointers and accesses separately. Comparing and
  subtracting pointers into a block after it was freed (CircularBuffer.hpp:225-230) is not counted as an
  error. `memcpy` of zero bytes with a null pointer is allowed.
* Byte order of the int32 headers is little endian; no theorem depends on it.
* `int` counters of the block containers (table sizes, slot indices) and pointer differences in CircularBuffer and
  StackBuffer are unbounded integers (C74-C77 show when they fit); the int32 headers stored in the buffers, the offset inside BlockIterator and MedCounter
  of WorkQueue have their real width.
* Reading a table slot past the used part inside the table gives an arbitrary pointer (`PJunk`) and is an error only when it is
  used; reading outside the table is an error.
* `std::vector` is a list, `std::map`/`std::unordered_map` a finite map with an iteration order that is a parameter.
* `std::string_view` keys are names of slots of the StableBlockVector that holds the text.
* Self copy-assignment of CircularBuffer and StackBuffer (memcpy onto itself) is undefined in the programs of C06 and C12; C89 takes
  that memcpy to do nothing. Self-move of the queues: C124.
* Template instances that do not compile are left out: DualMappedPointerVector::at, removal in the unstable
  StringMappedVector/DualStringMappedVector, block exponent N = 31.

*Concurrency*
* Sequentially consistent memory. The locks are std::mutex; the data-race theorems (C40, C45, C52, C116) show that non-atomic data is
  only touched under its lock. Atomics use the default seq_cst ordering, except in AirLock, whose flag is read with acquire and
  written with release: C52 and C53 treat it as sequentially consistent too, C69 and C70 use the release/acquire model
  (`AirWeak`: a load may return any write not older than what the thread knows; views travel with the mutex, the flag and
  synchronisation outside the class). There [data] is not given views: it is accessed under the lock only (C70).
* Condition variables are sets of waiting threads; notify_one wakes any one of them, spurious wakeups happen at any time,
  timed waits may time out at any time. Time itself is not modelled.
* popOrCall's callback is modelled as a point at which the calling thread stands while other contexts make the calls the
  callback makes.
* Work given to WorkQueue ends without an exception, except in C114: there execute() may throw in a queue without workers. (With
  workers the exception leaves workerLoop and the program is terminated.) If it calls the queue itself (anything but closeWorkerQueue or the destructor), this is covered as
  calls of another thread made while the worker stands at `X2`: no operation depends on who calls it, and the worker holds no lock
  there. WbModel has one thread; several threads at one WorkBlock are in `WbConc` (C90, C91), where a work is
  a step that takes time but does nothing else. C67 says when a queue makes two threads execute one block.
* numBlock asks the three queues in source order (C++ leaves the order open; the theorem about it does not depend on it).
* Two threads calling join() on one std::thread are flagged in C116 only.
* The cast of a queue size to int is exact.

## Findings: where the code does not do what its users would expect

| Property | What happens | Theorem |
|---|---|---|
| C01 | CircularBuffer: an exact fill makes write == read and all data is lost; filling to within 8 bytes of the end with the reader at 0 replays data | `C01_circ_fifo_refuted_loss`, `_replay` |
| C02 | the wrap marker is written at the write offset even if fewer than 4 bytes remain | `C02_circ_memory_refuted` |
| C05 | shrinking to less than 8 bytes above the data replays it | `C05_circ_resize_refuted` |
| C06 | a copy of a default constructed buffer holds a dangling pointer; move-assigning into it frees twice | `C06_circ_ownership_refuted` |
| C10, C11 | StackBuffer::resize of a non-empty stack sets the write position to the new size: no push fits afterwards | `C10_stack_resize_refuted`, `C11_stack_resize_space_unusable` |
| C12 | move assignment keeps the source's actualCapacity: later resize reports success without memory | `C12_stack_moved_from_refuted` |
| C15 | copy of an allocated but empty StableBlockVector destroys elements that never existed | `C15_vector_lifetime_refuted` |
| C17 | BlockIterator += with a negative distance is not normalised; large ones wrap the int offset | `C17_vector_iterators_refuted` |
| C18 | end() reads one past the pointer table when it is exactly full | `C18_vector_end_refuted`, `C18_deque_end_refuted` |
| C19 | push_back/begin/end of a moved-from vector go through a null table; move assignment leaves the old size | `C19_*_refuted` |
| C20, C22 | StableBlockDeque::clear destroys dead slots when front and back share a block and the front has moved | `C22_deque_lifetime_refuted` |
| C23, C24 | deque of size 0 / N = 0: first element at a wrong slot, push_front writes slot -1 | `C23_deque_empty_refuted`, `C24_deque_exponent_refuted` |
| C25 | growth at the front uses std::copy with overlapping ranges in the undefined direction | `C25_deque_front_growth_refuted` |
| C26 | find() of an element at position 2^31 or later in stable storage returns an iterator that points to no element (BlockIterator keeps its offset in an int) | `C26_find_refuted` |
| C27-C29 | removals with several or no search terms leave stale terms; later calls go outside the container | `C28_removal_refuted`, `C27_assign_refuted`, `C29_find_refuted` |
| C30, C31 | two-key insert with one key in use goes ahead and takes the key from its element | `C30_dual_insert_refuted`, `C31_dual_find_refuted` |
| C33 | DualMappedPointerVector removal of an element without one kind of key erases the default key's entry | `C33_pointer_removal_refuted` |
| C35 | copies of the string classes keep referring to the source's strings | `C35_copies_refuted` |
| C41 | pushVector of an empty vector makes empty() false with size() 0; moved-from queues too | `C41_*_refuted` |
| C46 | BlockingQueue: with two blocking consumers a wake-up is lost and a consumer sleeps for ever | `C46_refuted` |
| C47 | try_peek and size are not linearizable | `C47_refuted` |
| C50 | BlockingPriorityQueue: lost wake-up with one blocking consumer and a try_pop of a priority element | `C50_refuted` |
| C51 | empty() false on an empty priority queue | `C51_refuted` |
| C55 | MedCounter overflow starves low priority work | `C55_refuted` |
| C57 | overlapping closeWorkerQueue calls deadlock (join while holding queueLock) | `C57_refuted` |
| C58 | default WorkBlock constructor always throws; updateTask with a used task leaves a block that never runs | `C58_refuted` |
| C59 | popOrCall can wait although its callback pushed | `C59_refuted` |
| C60 | vector: a constructor that throws leaves a counted but empty slot; the destructor destroys it | `C60_vector_throw_refuted` |
| C61 | deque: the same; after push_front every index is off by one | `C61_deque_throw_refuted` |
| C62 | running out of memory for the very first block leaves a container that cannot be destroyed | `C62_nomem_refuted` |
| C65 | addWorkBlock notifies without queueLock: the wake-up can be lost and the block waits for the 5 s timeout; with more than numWorkers blocks waiting no further submission notifies | `C65_refuted`, `C65_no_notify` |
| C66 | isEmpty() true and numBlock() 0 although the queue was never empty | `C66_refuted`, `C66_num_block_refuted` |
| C67 | a block submitted twice is executed by two workers at once | `C67_refuted` |
| C68 | addWorkBlock after closeWorkerQueue accepts work that is never done | `C68_after_close`, `C68_ex` |
| C69 | try_unload called after load has returned can still find nothing (acquire load of the flag outside the lock) | `C69_refuted` |
| C72 | a push that throws after clearing queueEmptyFlag: the waiting consumer is not woken by later pushes | `C72_refuted`, `C72_refuted_priority` |
| C74 | StackBuffer::resize from nearly INT_MAX to less, after an earlier resize of a non-empty stack, overflows int | `C74_refuted` |
| C73 | ... and empty() answers false on an empty queue | `C73_refuted` |
| C78, C79 | an insertion whose lookup.emplace throws leaves the element without its key (two keys: without the second) | `C78_insert_throw_refuted`, `C79_dual_throw_refuted` |
| C80 | removeIndex erases the element before it copies the key; an exception there leaves the key of the removed element pointing at the next one | `C80_removal_throw_refuted` |
| C81 | string classes: a search term whose string cannot be built leaves a container whose destructor is undefined behaviour | `C81_text_throw_refuted` |
| C82 | an iterator of StableBlockVector made before the table of blocks was replaced reads the deleted table when it leaves its block | `C82_vector_iterator_moves_refuted`, `C82_vector_iterator_lost` |
| C83 | the same for StableBlockDeque; after a shift of the table ++ silently goes to a wrong element | `C83_deque_iterator_moves_refuted`, `C83_deque_iterator_shifted` |
| C84 | SimpleQueue::pop takes its element before it reverses the other vector; a swap that throws there loses the element and leaves the others out of order | `C84_refuted` |
| C86 | a StableBlockDeque that was moved from keeps bsize and freeIndex: push_back, end(), push_front and shrink_to_fit may go through a null pointer | `C86_moved_from_refuted` |
| C87 | a BlockingQueue moved while only pushElements holds something says empty() although it is not; the one moved from says it is not empty | `C87_moved_empty_refuted` |
| C88 | pop_back/pop_front of StableBlockDeque change their counters before a memory request; if it fails, indexes are off by a block and a block of elements is lost | `C88_pop_refuted`, `C88_pop_case_refuted` |
| C89 | x = x of the two buffers calls memcpy with overlapping regions; x = std::move(x) of a vector leaves the old size() with no elements | `C89_circ_self_copy_refuted`, `C89_stack_self_copy_refuted`, `C89_vector_self_move_refuted`, `C89_stack_self_move_refuted` |
| C90 | `finished` of a WorkBlock is a plain bool written after the future is ready: isFinished() is a data race and may be false after wait(); wait() + reset() + resubmission can lose the work for ever | `C90_race_refuted`, `C90_finished_refuted`, `C90_reuse_refuted` |
| C93 | an empty CircularBuffer refuses, for ever, a block that a new one of the same capacity accepts | `C93_circ_empty_refuted`, `C93_circ_stuck` |
| C95 | closeWorkerQueue called by work joins the worker that is executing it: it never returns (std::thread::join throws), and as halt is set the destructor does not close again, so that destroying the joinable thread calls std::terminate | `C95_refuted`, `C95_self_close`, `C95_last_worker` |
| C96 | A closeWorkerQueue that throws (make_shared, or the addWorkBlock of a dummy) has already set halt: the threads are not joined, the destructor does not close again and destroying the joinable threads calls std::terminate; calling closeWorkerQueue again waits for the workers while holding queueLock, which they need, and never returns. A constructor that cannot start its k-th thread ends the program as well | `C96_refuted`, `C96_close_threw`, `C96_retry`, `C96_retry_refuted`, `C96_constructor` |
| C97 | A load that waited, was notified and then throws while assigning (line 70) leaves the slot free without notifying anybody: other waiting loaders sleep on in front of a free slot. A try_unload whose move throws halfway, or whose result cannot be moved out, loses the element | `C97_refuted`, `C97_stuck`, `C97_lost_refuted` |
| C99 | A constructor of StableBlockVector or StableBlockDeque that is left by an exception leaks its table, blocks and elements; an assign that is left by an exception while elements are added leaves a container that cannot be destroyed | `C99_sized_refuted`, `C99_copy_refuted`, `C99_deque_sized_refuted`, `C99_deque_copy_refuted`, `C99_vector_assign_refuted`, `C99_deque_assign_refuted` |
| C100 | StackBuffer with a capacity that is not a multiple of 4 accesses its int32_t records at unaligned addresses | `C100_refuted` |
| C101 | StackBuffer forms pointers before its memory: in a full stack, with a capacity below 8, in clear() of a default constructed buffer | `C101_raw_refuted`, `C101_refuted` |
| C104 | copy assignment of CircularBuffer or StackBuffer that runs out of memory leaves the destination pointing into the memory of the source | `C104_circ_shared_refuted`, `C104_circ_refuted`, `C104_stack_shared_refuted`, `C104_stack_refuted` |
| C105 | push_back, pop_back, clear and the sized constructor of StableBlockVector, and clear of StableBlockDeque, are declared noexcept but ask for memory: running out of it ends the program | `C105_sized_refuted`, `C105_first_push_refuted`, `C105_refuted` |
| C106 | WorkBlock<void>::getReturnVal swallows the exception of the work, and returns normally when the work was never run (broken promise) | `C106_void_refuted`, `C106_refuted` |
| C109 | StableBlockDeque used as a queue: with the table full but for six entries, every third block pushed moves the whole table; the average cost of a push is not bounded | `C109_deque_refuted` |
| C109 | StableBlockDeque that grew at the front and is then pushed to at the back: half of the free part is given to the back again and again, moving all blocks each time; about log2 n copies per block | `C109_deque_push_refuted`, `C109_deque_push_partial` |
| C112 | CircularBuffer(0) and copies of a buffer resized to 0 never give back their array of length 0; StackBuffer(0) loses it on the first resize | `C112_circ_refuted`, `C112_circ_copy_refuted`, `C112_stack_refuted` |
| C115 | with stable storage: a mapped vector that was moved from cannot be used again or copied to; destroying the copy of one that was emptied is undefined; one with a full table cannot be copied | `C115_moved_from_refuted`, `C115_copy_to_moved_refuted`, `C115_copy_emptied_refuted`, `C115_copy_full_refuted` |
| C116 | two overlapping closeWorkerQueue calls use the same std::thread object at the same time (joinable, join); addWorkBlock reads `finished` of a block that is submitted again while a worker writes it | `C116_threads_refuted`, `C116_blocks_refuted` |
| C118 | clear() destroys the elements with both mutexes held: a destructor that calls anything but empty() on the same queue never returns, and every thread that later calls anything but empty() waits for ever | `C118_sq_refuted`, `C118_sq_stuck`, `C118_bq_refuted`, `C118_bq_stuck` |
| C119 | closeWorkerQueue never returns if the destructor of a block it throws away adds work to the same level, or calls numBlock (or, for the first queue, getWorkBlock) | `C119_refuted`, `C119_stuck`, `C119_which`, `C119_add` |
| C120 | a function given to apply/modify/transform that adds an element to a std::vector, makes a StableBlockVector replace its table of blocks or removes an element not yet visited: undefined behaviour in the loop | `C120_refuted`, `C120_vector` |
| C121 | move assignment to a blocking queue in use: nobody is notified, so a waiting consumer sleeps on next to the elements; a push under way can insert in front of what was assigned | `C121_asleep`, `C121_refuted`, `C121_order_refuted` |
| C123 | WorkQueue(n) when the system refuses a thread after some were started: std::terminate instead of an exception | `C123_terminates`, `C123_refuted` |
| C124 | x = std::move(x) of a queue loses its elements if the library empties vectors moved onto themselves | `C124_simple_refuted`, `C124_blocking_refuted` |

## Tests of the theorems against wrong programs

`seeded/LOG.jsonl` lists the edits made to a scratch copy of the models and which theorems stopped proving.
