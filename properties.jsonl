{"id": "C01", "title": "CircularBuffer delivers blocks FIFO, bytes intact, once each", "statement": "For every history of push, pop, nextDataSize, empty and clear calls on a circular buffer of any capacity, each successful pop delivers exactly the bytes of the oldest pushed block that was not popped or cleared yet; empty() is true exactly when every accepted block has been popped or cleared.", "quantifier": "every capacity, every sequence of calls, every block content and size", "why_tests_cant": "The failure depends on how block sizes line up with the end of the buffer after many wrap-arounds; tests sample a handful of size patterns.", "anchors": ["gmlc/containers/CircularBuffer.hpp: CircularBufferRaw::push, pop, nextDataSize, empty, clear"]}
{"id": "C02", "title": "CircularBuffer never touches memory outside its block", "statement": "No call on a circular buffer reads or writes a byte outside the capacity bytes it was given, whatever calls preceded it.", "quantifier": "every capacity and every sequence of calls", "why_tests_cant": "An out-of-bounds write of up to four bytes usually goes unnoticed, and needs particular size alignments.", "anchors": ["gmlc/containers/CircularBuffer.hpp: CircularBufferRaw::push, pop, nextDataSize"]}
{"id": "C03", "title": "CircularBuffer isSpaceAvailable predicts push", "statement": "For every state and every size n > 0 with a non-null data pointer, push of n bytes returns true iff isSpaceAvailable(n) was true; a push that returns false (including n <= 0 or null data) changes nothing observable.", "quantifier": "every buffer state (reachable or not), every size", "why_tests_cant": "Tests check a few sizes in a few states.", "anchors": ["gmlc/containers/CircularBuffer.hpp: CircularBufferRaw::isSpaceAvailable, push"]}
{"id": "C04", "title": "CircularBuffer short pop reports the size and keeps the block", "statement": "When the next block is larger than the caller's maxSize, pop returns minus its size, and the block is still the next one: a later pop with enough room delivers exactly the bytes it would have delivered. nextDataSize returns the size of the block the next pop delivers (0 iff nothing is queued) and changes nothing.", "quantifier": "every reachable state, every maxSize", "why_tests_cant": "Includes the wrap-around marker case where the failed pop still moves the read position.", "anchors": ["gmlc/containers/CircularBuffer.hpp: CircularBufferRaw::pop, nextDataSize"]}
{"id": "C05", "title": "CircularBuffer resize keeps every queued block or throws unchanged", "statement": "resize(n) either throws and leaves the buffer unchanged, or sets the capacity to n and keeps all queued blocks, in order, byte for byte; later pushes and pops continue to behave as a FIFO.", "quantifier": "every reachable state (wrapped or not), every new size", "why_tests_cant": "Wrapped/unwrapped x grow/shrink x offsets: tests cover a few literal offsets.", "anchors": ["gmlc/containers/CircularBuffer.hpp: CircularBuffer::resize, resizeMemory"]}
{"id": "C06", "title": "CircularBuffer copies are equal and independent, moves transfer ownership once", "statement": "A copy-constructed or copy-assigned circular buffer holds the same queued blocks as the source and operations on one never affect the other; a move leaves the source empty with capacity 0; no sequence of construct/copy/move/assign/resize/destroy frees a memory block twice or uses a freed block.", "quantifier": "every sequence of special member functions and operations over any number of buffers", "why_tests_cant": "Ownership errors need particular sequences (copy of an empty buffer, then assignment).", "anchors": ["gmlc/containers/CircularBuffer.hpp: CircularBuffer copy/move constructors and assignments, ~CircularBuffer, resizeMemory"]}
{"id": "C07", "title": "StackBuffer delivers blocks LIFO, bytes intact, with reverse()", "statement": "For every history of push, pop, reverse and clear calls, a stack buffer behaves as a stack of byte blocks: pop delivers exactly the bytes on top, reverse() reverses the extraction order, getCurrentCount() is the number of blocks, and empty() is true iff that is 0.", "quantifier": "every capacity and every sequence of calls", "why_tests_cant": "reverse() mixes index order and memory order; space reclamation depends on the whole history.", "anchors": ["gmlc/containers/StackBuffer.hpp: StackBufferRaw::push, pop, reverse, clear, nextDataSize"]}
{"id": "C08", "title": "StackBuffer stays inside its block and data never meets the index", "statement": "No stack buffer operation accesses a byte outside its capacity bytes and pushing a block never overwrites bytes of a block still stored nor its bookkeeping.", "quantifier": "every capacity and every sequence of calls", "why_tests_cant": "Overwrites show up only for specific sizes and histories.", "anchors": ["gmlc/containers/StackBuffer.hpp: StackBufferRaw::push, pop, reverse, isSpaceAvailable"]}
{"id": "C09", "title": "StackBuffer isSpaceAvailable predicts push, refused calls change nothing", "statement": "push of n > 0 bytes succeeds iff isSpaceAvailable(n); a refused push changes nothing; a pop whose maxSize is too small returns minus the size of the top block and changes nothing; pop on an empty stack returns 0.", "quantifier": "every state, every size", "why_tests_cant": "Tests check a few sizes.", "anchors": ["gmlc/containers/StackBuffer.hpp: StackBufferRaw::isSpaceAvailable, push, pop"]}
{"id": "C10", "title": "StackBuffer resize keeps every stored block or throws unchanged", "statement": "resize(n) returns false and changes nothing for n < 0; otherwise it either throws leaving the stack unchanged (only when the stored data does not fit in n) or sets the capacity to n and keeps every stored block in order, byte for byte.", "quantifier": "every reachable state, every new size", "why_tests_cant": "Index relocation overlaps the data area for particular sizes.", "anchors": ["gmlc/containers/StackBuffer.hpp: StackBuffer::resize, resizeMemory"]}
{"id": "C11", "title": "StackBuffer space gained by resize is usable", "statement": "After a successful resize(n), a block of s bytes is accepted iff the free space (n minus the bytes held and the index) is large enough, just as if the stack had been created with capacity n.", "quantifier": "every reachable state, every new size, every block size", "why_tests_cant": "Tests only pop after resizing a non-empty stack.", "anchors": ["gmlc/containers/StackBuffer.hpp: StackBuffer::resize"]}
{"id": "C12", "title": "StackBuffer copies are equal and independent; moved-from stacks are reusable", "statement": "Copies hold the same blocks and are independent; moves transfer the blocks and leave an empty stack which can be resized and used again; no sequence of special members frees a block twice or writes through a null or freed pointer.", "quantifier": "every sequence of special member functions and operations", "why_tests_cant": "Needs particular sequences such as move-assign, resize, push.", "anchors": ["gmlc/containers/StackBuffer.hpp: StackBuffer copy/move constructors and assignments, swap, resizeMemory"]}
{"id": "C13", "title": "StableBlockVector behaves as a sequence", "statement": "For every block exponent and every history of push_back/emplace_back, pop_back, clear, shrink_to_fit, assign and element assignment, size(), operator[], at(), front() and back() agree with the same history on a plain list (pop_back on empty is a no-op).", "quantifier": "every N, every history, every element value", "why_tests_cant": "Block-boundary bookkeeping (two representations of a full last block) depends on whole histories.", "anchors": ["gmlc/containers/StableBlockVector.hpp: emplace_back, push_back, pop_back, assign, clear, shrink_to_fit, back, front, operator[], at"]}
{"id": "C14", "title": "StableBlockVector elements never move", "statement": "The storage location of an element is fixed from its insertion until it is removed: no push, pop of another element, clear-and-refill of blocks, shrink_to_fit or growth of the internal tables changes the location or contents of a live element, and distinct live elements have distinct locations.", "quantifier": "every history, every live element", "why_tests_cant": "Growth of the pointer table happens only after 64 blocks; aliasing needs block recycling.", "anchors": ["gmlc/containers/StableBlockVector.hpp: blockCheck, moveBlocktoAvailable, getNewBlock"]}
{"id": "C15", "title": "StableBlockVector constructs and destroys each element once and frees each block once", "statement": "Over any history ending in destruction (including copies, moves and assignments), every element is destroyed exactly once and only after construction, no destroyed or never-constructed slot is destroyed or read, and every block allocated is deallocated exactly once.", "quantifier": "every history ending with the destructor", "why_tests_cant": "Lifetime errors are silent for trivially destructible types and need specific histories.", "anchors": ["gmlc/containers/StableBlockVector.hpp: freeAll, clear, pop_back, copy and move constructors/assignments, shrink_to_fit"]}
{"id": "C16", "title": "StableBlockVector at() is bounds checked", "statement": "at(n) throws out_of_range iff n >= size(); otherwise it denotes the same element as operator[](n), the n-th of the sequence.", "quantifier": "every reachable state, every n", "why_tests_cant": "Unbounded index space.", "anchors": ["gmlc/containers/StableBlockVector.hpp: at, operator[]", "gmlc/containers/StableBlockDeque.hpp: at, operator[]"]}
{"id": "C17", "title": "Block iterators enumerate the sequence", "statement": "begin() advanced k times (by ++ or by += k) denotes element k for k < size() and equals end() for k = size(); -- and -= invert ++ and +=; traversal from begin() to end() visits each element once, in order, for vector and deque.", "quantifier": "every reachable container state, every offset", "why_tests_cant": "Block crossing arithmetic at every size and offset.", "anchors": ["gmlc/containers/BlockIterator.hpp: operator++, operator+=, operator--, operator-=, check, checkNeg", "gmlc/containers/StableBlockVector.hpp: begin, end", "gmlc/containers/StableBlockDeque.hpp: begin, end"]}
{"id": "C18", "title": "Obtaining an iterator reads no memory outside the container", "statement": "Calling begin() or end() on a live container never reads outside the memory owned by the container.", "quantifier": "every reachable state of a vector or deque", "why_tests_cant": "Only happens when the internal table is exactly full (64 blocks, 128 blocks, ...).", "anchors": ["gmlc/containers/StableBlockVector.hpp: end", "gmlc/containers/StableBlockDeque.hpp: end", "gmlc/containers/BlockIterator.hpp: constructor, check"]}
{"id": "C19", "title": "StableBlockVector remains usable after being moved from", "statement": "After a vector is moved from (by construction or by assignment) it is empty and can be pushed to and iterated again.", "quantifier": "every source state", "why_tests_cant": "Tests do not reuse moved-from containers.", "anchors": ["gmlc/containers/StableBlockVector.hpp: move constructor, move assignment, blockCheck, begin, end"]}
{"id": "C20", "title": "StableBlockDeque behaves as a double-ended sequence", "statement": "For every block exponent and every history of push/emplace/pop at both ends, clear, shrink_to_fit and assign, size(), operator[], at(), front() and back() agree with the same history on a plain list.", "quantifier": "every N, every history, every value", "why_tests_cant": "Pointer table shifts happen only after dozens of blocks in one direction; representation has many corner cases.", "anchors": ["gmlc/containers/StableBlockDeque.hpp: emplace_back, push_back, pop_back, emplace_front, push_front, pop_front, blockCheck, blockCheckFront, operator[], front, back, clear"]}
{"id": "C21", "title": "StableBlockDeque elements never move", "statement": "The storage location of an element is fixed from insertion to removal at either end, including when the internal table is shifted or doubled; distinct live elements have distinct locations.", "quantifier": "every history, every live element", "why_tests_cant": "Table shifting needs long one-directional histories.", "anchors": ["gmlc/containers/StableBlockDeque.hpp: blockCheck, blockCheckFront, moveBlocktoAvailable, getNewBlock"]}
{"id": "C22", "title": "StableBlockDeque destroys only live elements, each once", "statement": "Over any history, pop_back, pop_front, clear and the destructor destroy each live element exactly once and never a slot that holds no element; each block is deallocated exactly once.", "quantifier": "every history ending with the destructor", "why_tests_cant": "Silent for trivial types.", "anchors": ["gmlc/containers/StableBlockDeque.hpp: clear, pop_back, pop_front, freeAll"]}
{"id": "C23", "title": "StableBlockDeque sized construction and copy construction give a correct deque", "statement": "StableBlockDeque(n, v) is the sequence of n copies of v and copying a deque yields an equal, independent deque, for every n including 0 and every source including default-constructed ones; the result obeys the double-ended sequence behaviour under every later history.", "quantifier": "every n, N, source state and later history", "why_tests_cant": "Many layout cases by n and N.", "anchors": ["gmlc/containers/StableBlockDeque.hpp: StableBlockDeque(size_t, const X&), copy constructor"]}
{"id": "C24", "title": "StableBlockDeque works for every documented block exponent", "statement": "For every N in the documented range 0..31, push_front and push_back on an empty deque store the element inside an allocated block.", "quantifier": "every N in 0..31", "why_tests_cant": "N = 0 is documented as allowed but not tested.", "anchors": ["gmlc/containers/StableBlockDeque.hpp: blockCheck, blockCheckFront, static_assert N < 32"]}
{"id": "C25", "title": "StableBlockDeque front growth moves the block table correctly", "statement": "When pushing at the front exhausts the front of the block table, the table is relocated so that every element keeps its position, using only well-defined library operations.", "quantifier": "every reachable state at the moment of growth", "why_tests_cant": "The overlapping copy is undefined by the standard and works only if the library uses memmove.", "anchors": ["gmlc/containers/StableBlockDeque.hpp: blockCheckFront (std::copy with overlapping destination)"]}
{"id": "C26", "title": "MappedVector insert is keyed and unique", "statement": "insert(k, v) returns no index and changes nothing if k is already a search term; otherwise it appends v, returns its position and makes find(k) denote it; no other search term or element changes.", "quantifier": "every reachable state, every key and value", "why_tests_cant": "All histories of inserts, aliases and removals.", "anchors": ["gmlc/containers/MappedVector.hpp: insert, find", "gmlc/containers/MappedPointerVector.hpp: insert, find", "gmlc/containers/StringMappedVector.hpp: insert, find"]}
{"id": "C27", "title": "MappedVector insert_or_assign replaces in place or appends", "statement": "insert_or_assign(k, v) replaces exactly the element found under k (keeping all positions and terms) if k is present, else appends like insert; it returns the position and afterwards find(k) denotes v.", "quantifier": "every reachable state", "why_tests_cant": "All histories.", "anchors": ["gmlc/containers/MappedVector.hpp: insert_or_assign", "gmlc/containers/MappedPointerVector.hpp: insert_or_assign", "gmlc/containers/StringMappedVector.hpp: insert_or_assign"]}
{"id": "C28", "title": "Removal from a mapped vector keeps every other association", "statement": "After remove(k) or removeIndex(i): no search term denotes the removed element any more, every search term of every other element still denotes the same element, and (unstable storage) later elements move down by exactly one position.", "quantifier": "every reachable state incl. several search terms per element and elements without one", "why_tests_cant": "Aliases and default-valued keys interact with removal.", "anchors": ["gmlc/containers/MappedVector.hpp: removeIndex, remove, addSearchTermForIndex", "gmlc/containers/MappedPointerVector.hpp: removeIndex, remove", "gmlc/containers/StringMappedVector.hpp: removeIndex, remove"]}
{"id": "C29", "title": "find never yields a position outside the container", "statement": "In every reachable state every search term denotes a position < size(), so find returns end() or a valid element, and a term that was never inserted or was removed is not found.", "quantifier": "every history", "why_tests_cant": "Dangling terms appear only after particular removals.", "anchors": ["gmlc/containers/MappedVector.hpp: find, removeIndex, remove", "gmlc/containers/DualMappedVector.hpp: find", "gmlc/containers/DualMappedPointerVector.hpp: find", "gmlc/containers/MappedPointerVector.hpp: find"]}
{"id": "C30", "title": "DualMappedVector insert refuses duplicate keys and never steals one", "statement": "insert(k1, k2, v) succeeds only if neither k1 nor k2 is in use; a successful insert changes the element denoted by no existing term.", "quantifier": "every reachable state, every key pair", "why_tests_cant": "Depends on which of the two keys pre-exists.", "anchors": ["gmlc/containers/DualMappedVector.hpp: insert", "gmlc/containers/DualStringMappedVector.hpp: insert", "gmlc/containers/DualMappedPointerVector.hpp: insert"]}
{"id": "C31", "title": "DualMappedVector find follows both keys", "statement": "After a successful insert(k1,k2,v) or insert_or_assign(k1,k2,v) both find(k1) and find(k2) denote v; terms not mentioned keep their element; addSearchTerm adds an alias only if the new term is unused and the existing one is known.", "quantifier": "every reachable state", "why_tests_cant": "All histories, two key spaces.", "anchors": ["gmlc/containers/DualMappedVector.hpp: insert, insert_or_assign, addSearchTerm, addSearchTermForIndex, find", "gmlc/containers/DualStringMappedVector.hpp: same", "gmlc/containers/DualMappedPointerVector.hpp: insert, insert_or_assign, find"]}
{"id": "C32", "title": "DualMappedVector removal removes every term of the element and only those", "statement": "After removeIndex(i) or remove(term) on a DualMappedVector or DualStringMappedVector no term of either kind denotes the removed element and every other term denotes the same element as before.", "quantifier": "every reachable state, several terms per element", "why_tests_cant": "Multi-alias histories.", "anchors": ["gmlc/containers/DualMappedVector.hpp: removeIndex, remove, localErase", "gmlc/containers/DualStringMappedVector.hpp: removeIndex, remove"]}
{"id": "C33", "title": "DualMappedPointerVector removal is consistent across both keys", "statement": "After removeIndex(i) or remove(term) no term of either kind denotes the removed element and every other term denotes the same object as before.", "quantifier": "every reachable state incl. elements with only one key", "why_tests_cant": "Default-valued key and single-key elements interact.", "anchors": ["gmlc/containers/DualMappedPointerVector.hpp: removeIndex, remove"]}
{"id": "C34", "title": "Stable mapped vectors keep references through removal", "statement": "With reference_stability::stable, removing an element that is not the last changes no element and no position; removing the last one removes only it; so references to other elements stay valid and keep their value.", "quantifier": "every reachable state", "why_tests_cant": "All histories.", "anchors": ["gmlc/containers/MappedVector.hpp: localErase", "gmlc/containers/StringMappedVector.hpp: localErase", "gmlc/containers/DualMappedVector.hpp: localErase", "gmlc/containers/DualStringMappedVector.hpp: localErase"]}
{"id": "C35", "title": "String mapped vectors own their key text", "statement": "Every stored search term of a StringMappedVector/DualStringMappedVector refers to text owned by the same container for as long as the container lives, whatever inserts, aliases, removals, clears, copies and moves occur.", "quantifier": "every history including copy and move of the container", "why_tests_cant": "Dangling views into another object usually still compare equal in tests.", "anchors": ["gmlc/containers/StringMappedVector.hpp: insert, insert_or_assign, removeIndex, clear, implicit copy", "gmlc/containers/DualStringMappedVector.hpp: same"]}
{"id": "C36", "title": "modify/transform/apply visit each element once in order", "statement": "apply and modify call the function once per element in position order; transform replaces each element by the function's result; search terms and size are unchanged.", "quantifier": "every state, every function", "why_tests_cant": "All sizes.", "anchors": ["gmlc/containers/MappedVector.hpp: apply, modify, transform", "gmlc/containers/DualMappedVector.hpp: same", "gmlc/containers/MappedPointerVector.hpp: apply"]}
{"id": "C37", "title": "mapFind returns the mapped value or the default", "statement": "mapFind(m,k,d) is the value stored under k or d when absent; mapFind(m,k) is that value or no value; the map is not changed.", "quantifier": "every map, key and default", "why_tests_cant": "All maps.", "anchors": ["gmlc/containers/mapOps.hpp: mapFind"]}
{"id": "C38", "title": "SimpleQueue is a linearizable FIFO queue", "statement": "For any number of threads calling push, emplace, pushVector, pop, peek, size and clear concurrently, every history of calls and returns is one an atomic FIFO queue could produce, with each operation taking effect between its call and its return (pushVector as one batch).", "quantifier": "every number of threads, every program, every interleaving", "why_tests_cant": "Interleavings cannot be enumerated by tests.", "anchors": ["gmlc/containers/SimpleQueue.hpp: push, pushVector, emplace, pop, peek, size, clear, checkPullandSwap"]}
{"id": "C39", "title": "SimpleQueue cannot deadlock", "statement": "Whenever some thread is inside a SimpleQueue operation, some thread inside an operation can take a step.", "quantifier": "every interleaving of any number of threads", "why_tests_cant": "Lock-order deadlocks need specific schedules.", "anchors": ["gmlc/containers/SimpleQueue.hpp: all methods taking m_pushLock, m_pullLock"]}
{"id": "C40", "title": "SimpleQueue guards its data by locks and never pops an empty vector", "statement": "No two threads ever access the same internal vector at the same time with one writing, and pop never takes the last element of an empty vector.", "quantifier": "every interleaving", "why_tests_cant": "Races are schedule-dependent.", "anchors": ["gmlc/containers/SimpleQueue.hpp: push, pop, checkPullandSwap"]}
{"id": "C41", "title": "SimpleQueue empty() agrees with the content when no call is in progress", "statement": "When no operation is in progress, empty() returns true iff the queue holds no element (iff size() is 0).", "quantifier": "every history", "why_tests_cant": "Depends on history, e.g. batches of length 0 and moves.", "anchors": ["gmlc/containers/SimpleQueue.hpp: empty, pushVector, move constructor"]}
{"id": "C42", "title": "BlockingQueue neither loses, duplicates nor invents elements", "statement": "At every moment, for any number of producers and consumers, the elements pushed (at their placement) are exactly those delivered plus those still held (minus cleared ones), each once; each delivery takes the element at the head of the queue.", "quantifier": "every number of threads and every interleaving", "why_tests_cant": "Schedules.", "anchors": ["gmlc/containers/BlockingQueue.hpp: push, emplace, try_pop, pop, popOrCall, clear, checkPullAndSwap"]}
{"id": "C43", "title": "BlockingQueue is FIFO in real time", "statement": "If push(a) returned before push(b) was called then a is delivered before b (unless cleared), whatever consumers and other producers do.", "quantifier": "every interleaving of any number of threads", "why_tests_cant": "The push fast path releases one lock before taking the other.", "anchors": ["gmlc/containers/BlockingQueue.hpp: push, emplace, try_pop, pop"]}
{"id": "C44", "title": "BlockingQueue try_pop returns nothing only if the queue was empty", "statement": "try_pop returns no value only if at some moment during the call the queue held no element.", "quantifier": "every interleaving", "why_tests_cant": "Schedules.", "anchors": ["gmlc/containers/BlockingQueue.hpp: try_pop, checkPullAndSwap", "gmlc/containers/BlockingPriorityQueue.hpp: try_pop"]}
{"id": "C45", "title": "BlockingQueue cannot deadlock and obeys its locks", "statement": "Whenever a thread is inside an operation and not waiting on the condition variable, some thread can take a step; all accesses to the internal vectors are made holding the owning lock and no element is taken from an empty vector.", "quantifier": "every interleaving", "why_tests_cant": "Schedules.", "anchors": ["gmlc/containers/BlockingQueue.hpp: all methods", "gmlc/containers/BlockingPriorityQueue.hpp: all methods"]}
{"id": "C46", "title": "BlockingQueue has no lost wakeup", "statement": "A consumer never stays blocked in pop() while an element is available and every producer has returned.", "quantifier": "every interleaving of any number of producers and consumers", "why_tests_cant": "A lost wakeup needs a precise three-party interleaving.", "anchors": ["gmlc/containers/BlockingQueue.hpp: push, pop, popOrCall, condition"]}
{"id": "C47", "title": "BlockingQueue size and try_peek agree with the completed pushes", "statement": "size(), try_peek() and empty() observe the effect of every push that returned before they were called: the operations together are those of an atomic FIFO queue.", "quantifier": "every interleaving; also single-threaded histories with popOrCall", "why_tests_cant": "Schedules.", "anchors": ["gmlc/containers/BlockingQueue.hpp: size, try_peek, empty, pop, popOrCall"]}
{"id": "C48", "title": "BlockingPriorityQueue delivers priority elements first", "statement": "Whenever a normal-channel element is delivered by try_pop, pop, timed pop or popOrCall, no priority element is in the queue at that moment; priority elements are delivered in FIFO order among themselves.", "quantifier": "every interleaving", "why_tests_cant": "Schedules.", "anchors": ["gmlc/containers/BlockingPriorityQueue.hpp: pushPriority, emplacePriority, try_pop, pop, popOrCall"]}
{"id": "C49", "title": "BlockingPriorityQueue neither loses, duplicates nor invents elements, FIFO per channel", "statement": "The elements placed are exactly those delivered plus those held (minus cleared), each once; normal elements are FIFO in real time.", "quantifier": "every interleaving", "why_tests_cant": "Schedules.", "anchors": ["gmlc/containers/BlockingPriorityQueue.hpp: push, pushPriority, try_pop, pop, clear"]}
{"id": "C50", "title": "BlockingPriorityQueue has no lost wakeup", "statement": "A consumer never stays blocked in pop() while an element (normal or priority) is available and every producer has returned.", "quantifier": "every interleaving of any number of producers and consumers", "why_tests_cant": "Needs precise interleavings.", "anchors": ["gmlc/containers/BlockingPriorityQueue.hpp: push, pushPriority, pop, condition"]}
{"id": "C51", "title": "BlockingPriorityQueue empty() agrees with the content at rest", "statement": "When no operation is in progress empty() returns true iff no element is held.", "quantifier": "every history", "why_tests_cant": "History dependent.", "anchors": ["gmlc/containers/BlockingPriorityQueue.hpp: empty, try_pop"]}
{"id": "C52", "title": "AirLock is a linearizable one-slot buffer", "statement": "For any threads calling try_load, load, try_unload and isLoaded, every history is one of an atomic one-slot buffer: a successful load happens only into an empty slot, try_unload returns exactly the value last loaded, once.", "quantifier": "every interleaving of any number of threads", "why_tests_cant": "Schedules.", "anchors": ["gmlc/containers/AirLock.hpp: try_load, load, try_unload, isLoaded"]}
{"id": "C53", "title": "AirLock loaders are not forgotten, and it cannot deadlock", "statement": "If a loader is blocked in load() while the slot is free and nobody is inside the lock, then some loader has already been woken; whenever a thread is inside an operation and not waiting, some thread can take a step.", "quantifier": "every interleaving", "why_tests_cant": "Schedules.", "anchors": ["gmlc/containers/AirLock.hpp: load, try_unload, condition.notify_one"]}
{"id": "C54", "title": "WorkQueue hands out high priority work first, in order", "statement": "getWorkBlock returns the oldest high (or required) priority block whenever there is one; within each priority blocks are handed out in submission order; a block is returned whenever any queue is non-empty.", "quantifier": "every queue content, counter and ratio", "why_tests_cant": "All histories.", "anchors": ["gmlc/containers/WorkQueue.hpp: getWorkBlock, addWorkBlock"]}
{"id": "C55", "title": "WorkQueue does not starve low priority work and honours the ratio", "statement": "With no high priority work and both medium and low work available, low blocks are handed out after at most `ratio` consecutive medium blocks, and between two consecutive low blocks exactly `ratio` medium blocks are handed out.", "quantifier": "every ratio, every counter value, every history", "why_tests_cant": "All histories.", "anchors": ["gmlc/containers/WorkQueue.hpp: getWorkBlock, setPriorityRatio"]}
{"id": "C56", "title": "WorkQueue executes each submitted block at most once, and loses none before close", "statement": "For any number of workers and submitters, every block submitted (once) is handed to at most one worker, and is either still queued, taken, or discarded by closeWorkerQueue; with no workers it is executed before addWorkBlock returns.", "quantifier": "every interleaving", "why_tests_cant": "Schedules.", "anchors": ["gmlc/containers/WorkQueue.hpp: addWorkBlock, getWorkBlock, workerLoop, closeWorkerQueue"]}
{"id": "C57", "title": "WorkQueue shutdown terminates every worker", "statement": "After closeWorkerQueue sets the halt flag and cleared the queues, every worker leaves its loop after executing a bounded number of further blocks, so closeWorkerQueue cannot wait forever for a worker stuck in the queue logic.", "quantifier": "every interleaving after halt", "why_tests_cant": "Schedules and timeouts.", "anchors": ["gmlc/containers/WorkQueue.hpp: closeWorkerQueue, workerLoop, isEmpty"]}
{"id": "C58", "title": "WorkBlock runs its work exactly once per reset", "statement": "execute() runs the work iff the block is loaded and not finished; afterwards isFinished() is true and further execute() calls do nothing until reset() or an update; a result future obtained after the last reset becomes ready exactly when executed; every constructor yields a usable block.", "quantifier": "every history of calls", "why_tests_cant": "All histories; default construction is not tested.", "anchors": ["gmlc/containers/WorkQueue.hpp: WorkBlock::execute, reset, updateWorkFunction, updateTask, constructors"]}
{"id": "C59", "title": "popOrCall calls the callback before blocking and sees what it pushed", "statement": "popOrCall invokes the callback only when a try_pop found nothing, re-checks the queue after each callback, and returns an element the callback pushed without waiting.", "quantifier": "every interleaving and every callback pushing any number of elements", "why_tests_cant": "Schedules.", "anchors": ["gmlc/containers/BlockingQueue.hpp: popOrCall", "gmlc/containers/BlockingPriorityQueue.hpp: popOrCall"]}
{"id": "C60", "title": "A throwing element constructor leaves StableBlockVector as it was", "statement": "If the element constructor run by emplace_back/push_back throws, size(), every element, its address and the behaviour of every later call are as if the push had not been attempted.", "quantifier": "every block exponent, element type and history before the throwing push", "why_tests_cant": "Every state in which the push can throw; the test types never throw.", "anchors": ["gmlc/containers/StableBlockVector.hpp:135-157"]}
{"id": "C61", "title": "A throwing element constructor leaves StableBlockDeque as it was", "statement": "If the element constructor run by emplace_back/push_back/emplace_front/push_front throws, size(), every element and the behaviour of every later call are as if the push had not been attempted.", "quantifier": "every block exponent, element type, end and history before the throwing push", "why_tests_cant": "Every state in which the push can throw; the test types never throw.", "anchors": ["gmlc/containers/StableBlockDeque.hpp:179-200", "gmlc/containers/StableBlockDeque.hpp:217-238"]}
{"id": "C62", "title": "A push that runs out of memory leaves block containers usable", "statement": "If a memory request made by push_back throws, whichever of the requests it is, the container holds what it held, every later legal call behaves as if the push had not been attempted, and the container can be destroyed.", "quantifier": "every block exponent, history and failing request", "why_tests_cant": "Allocation failure is not injected in any test.", "anchors": ["gmlc/containers/StableBlockVector.hpp:378-396", "gmlc/containers/StableBlockDeque.hpp:475-508"]}
{"id": "C63", "title": "WorkQueue priorities and order hold under concurrency", "statement": "With any number of workers, users and submitters, getWorkBlock hands out a block that is not high priority only if the high queue was empty at some moment of that very call; a low block instead of a medium one only if the counter was read not below the ratio or the medium queue was empty at some moment; no block only if each of the three queues was empty at some moment of the call. Blocks of one priority leave their queue in the order in which they entered it.", "quantifier": "every number of threads, every interleaving, every moment", "why_tests_cant": "Schedules; the tests check order with a single consumer at rest.", "anchors": ["gmlc/containers/WorkQueue.hpp:437-465", "gmlc/containers/SimpleQueue.hpp:120-252"]}
{"id": "C64", "title": "An open WorkQueue gets its work done", "statement": "While the queue is open and has workers there is no deadlock: either some thread can step, or all workers are asleep waiting on the condition and nobody is inside a call. Without new calls only boundedly many steps happen between two wait timeouts. When everybody is asleep and the wait of any one worker ends (timeout or spurious wake-up), the queue comes to rest again only when the three queues are empty and every block ever submitted is finished or was taken by a user through getWorkBlock.", "quantifier": "every number of workers, users and submitters, every interleaving from construction, every wake-up", "why_tests_cant": "Liveness over all schedules; the tests wait for a few futures under the schedules the machine happens to produce.", "anchors": ["gmlc/containers/WorkQueue.hpp:340-400", "gmlc/containers/WorkQueue.hpp:437-500"]}
{"id": "C65", "title": "Submitted work does not have to wait for a timeout", "statement": "After addWorkBlock has returned on an open queue with an idle worker, the block is executed without any wait having to time out.", "quantifier": "every interleaving of workers and submitters", "why_tests_cant": "The lost notification needs a submitter between the worker's last emptiness check and its wait; the 5 s wait_for hides it as latency.", "anchors": ["gmlc/containers/WorkQueue.hpp:353-373", "gmlc/containers/WorkQueue.hpp:466-490"]}
{"id": "C66", "title": "WorkQueue isEmpty and numBlock describe the queue at one moment", "statement": "If isEmpty() returns true there was a moment during the call at which all three queues were empty; numBlock() returns the number of blocks queued at some moment of the call.", "quantifier": "every interleaving of the call with other calls and workers", "why_tests_cant": "The tests call them on a queue at rest; the discrepancy needs work to move in and out between the three separate looks.", "anchors": ["gmlc/containers/WorkQueue.hpp:405-424"]}
{"id": "C67", "title": "A WorkBlock is never executed by two threads at once", "statement": "At any moment at most one thread is inside execute() of a given block.", "quantifier": "every number of workers, every schedule, every block", "why_tests_cant": "Needs two workers between the finished check and its update; depends on the schedule.", "anchors": ["gmlc/containers/WorkQueue.hpp:85-93", "gmlc/containers/WorkQueue.hpp:344-376", "gmlc/containers/WorkQueue.hpp:484-489"]}
{"id": "C68", "title": "After closeWorkerQueue has returned nothing is executed", "statement": "Once some call of closeWorkerQueue has returned, every worker thread has ended, and whatever is called afterwards no block is executed and no worker takes a block.", "quantifier": "every execution with at least one worker, overlapping closeWorkerQueue calls included, and every continuation", "why_tests_cant": "A statement about all continuations and all schedules.", "anchors": ["gmlc/containers/WorkQueue.hpp:313-336", "gmlc/containers/WorkQueue.hpp:469-490"]}
{"id": "C69", "title": "AirLock is a linearizable one-slot buffer with the memory ordering it uses", "statement": "With loaded read by acquire loads and written by release stores, as in the code, every history of try_load, load, try_unload and isLoaded is one of an atomic one-slot buffer (as in C52, which takes memory to be sequentially consistent).", "quantifier": "every execution of the release/acquire memory model, any number of threads, any synchronisation between them outside the class", "why_tests_cant": "Tests run on x86, where plain loads are nearly sequentially consistent; the model allows stale loads.", "anchors": ["gmlc/containers/AirLock.hpp:45-53", "gmlc/containers/AirLock.hpp:81-91", "gmlc/containers/AirLock.hpp:97"]}
{"id": "C70", "title": "AirLock under the lock does not depend on the memory model", "statement": "With acquire loads and release stores, loads of loaded made under the lock return the newest value, no two threads access the data at once, a waiting loader is not forgotten, and nothing deadlocks.", "quantifier": "every execution of the release/acquire memory model", "why_tests_cant": "The comment at line 83 (relaxed would do) is a claim about the memory model, not about any one run.", "anchors": ["gmlc/containers/AirLock.hpp:46-50", "gmlc/containers/AirLock.hpp:62-72", "gmlc/containers/AirLock.hpp:82-89"]}
{"id": "C71", "title": "Blocking queues: an operation that throws has no effect", "statement": "If copying or constructing an element, growing a container, or the callback of popOrCall throws, the operation leaves the queue as it was: every history is one of an atomic queue in which operations that throw do nothing; the locks are released; elements of pushes that threw are never popped and the others keep their order.", "quantifier": "every schedule, any number of threads, any operation of those that may throw throwing at any of its points", "why_tests_cant": "Exceptions in the middle of a concurrent push are not injected by the tests; every interleaving and every point of throwing is covered.", "anchors": ["gmlc/containers/BlockingQueue.hpp:104-187", "gmlc/containers/BlockingQueue.hpp:277-303", "gmlc/containers/BlockingPriorityQueue.hpp:103-234", "gmlc/containers/BlockingPriorityQueue.hpp:350-386"]}
{"id": "C72", "title": "Blocking queues: a push that throws does not make later wake-ups disappear", "statement": "After a push that threw, a consumer blocked in pop() is still woken by the next push that succeeds.", "quantifier": "every schedule with one blocking consumer", "why_tests_cant": "Needs an exception in a push at the moment a consumer is waiting.", "anchors": ["gmlc/containers/BlockingQueue.hpp:120-148", "gmlc/containers/BlockingPriorityQueue.hpp:119-172"]}
{"id": "C73", "title": "Blocking queues: empty() after a push that throws", "statement": "When nobody is inside an operation, empty() answers true exactly if nothing is held, even if some pushes have thrown.", "quantifier": "every schedule", "why_tests_cant": "The flag is cleared before the element is stored; only an exception between the two shows it.", "anchors": ["gmlc/containers/BlockingQueue.hpp:120-137", "gmlc/containers/BlockingQueue.hpp:363-367", "gmlc/containers/BlockingPriorityQueue.hpp:153-164", "gmlc/containers/BlockingPriorityQueue.hpp:437-441"]}
{"id": "C74", "title": "StackBuffer: int arithmetic does not overflow", "statement": "Every int value that StackBufferRaw and StackBuffer compute (sums, products and pointer differences narrowed to int) lies within int, if the arguments do.", "quantifier": "every program over any number of stack buffers, any sizes up to INT_MAX", "why_tests_cant": "Overflow needs buffers of about 2 GB and particular sequences of resizes.", "anchors": ["gmlc/containers/StackBuffer.hpp:41-110", "gmlc/containers/StackBuffer.hpp:220-275"]}
{"id": "C75", "title": "CircularBuffer: int arithmetic does not overflow", "statement": "Every int value that CircularBufferRaw and CircularBuffer compute (sums, negated lengths and pointer differences narrowed to int) lies within int, if the arguments do, in every run that has made no invalid memory access so far.", "quantifier": "every program over any number of circular buffers, any sizes up to INT_MAX, including runs in which messages are lost", "why_tests_cant": "Overflow would need buffers of about 2 GB.", "anchors": ["gmlc/containers/CircularBuffer.hpp:33-128", "gmlc/containers/CircularBuffer.hpp:215-300"]}
{"id": "C76", "title": "StableBlockVector: memory is bounded by the largest size", "statement": "If the vector has never had more than p elements, it holds at most p/blockSize + 1 blocks and at most two tables of at most max(64, 2(p/blockSize + 1)) entries; after shrink_to_fit it holds at most size/blockSize + 1 blocks. The int counters do not overflow as long as p/blockSize + 1 < 2^30.", "quantifier": "every legal sequence of calls of any length on a default constructed or sized vector, every block exponent up to 30", "why_tests_cant": "A leak of blocks or a table that grows without need shows only after long sequences; tests look at contents, not at the memory held.", "anchors": ["gmlc/containers/StableBlockVector.hpp:135-255", "gmlc/containers/StableBlockVector.hpp:378-433"]}
{"id": "C77", "title": "StableBlockDeque: memory is bounded by the largest size", "statement": "If the deque has never had more than p elements, it holds at most p/blockSize + 2 blocks and at most two tables of at most max(64, 2(p/blockSize + 7)) entries, however many elements have passed through it; after shrink_to_fit it holds at most size/blockSize + 2 blocks. The int counters do not overflow as long as p/blockSize + 7 < 2^30.", "quantifier": "every legal sequence of calls of any length on a default constructed or sized deque, every block exponent up to 30", "why_tests_cant": "Elements passing through from back to front move the used part of the table; whether the table keeps growing shows only after long sequences.", "anchors": ["gmlc/containers/StableBlockDeque.hpp:179-361", "gmlc/containers/StableBlockDeque.hpp:475-627"]}
{"id": "C78", "title": "Mapped vectors: an exception out of an insertion leaves the container as it was", "statement": "If insert, insert_or_assign or addSearchTermForIndex of MappedVector, StringMappedVector or MappedPointerVector is left by an exception (a throwing constructor, key copy or hash, or no memory), the container is as it was before the call and all later calls answer accordingly.", "quantifier": "every state reached by guarded calls, every call, every point at which it can be left, every later sequence of guarded calls, both storage kinds", "why_tests_cant": "Tests would have to make every allocation and every copy fail in every state; no test in the suite makes any fail.", "anchors": ["gmlc/containers/MappedVector.hpp:42-129", "gmlc/containers/MappedPointerVector.hpp:36-130", "gmlc/containers/StringMappedVector.hpp:41-83"]}
{"id": "C79", "title": "Two-key mapped vectors: an exception out of an insertion leaves the container as it was", "statement": "If insert, insert_or_assign, addSearchTerm or addSearchTermForIndex of DualMappedVector, DualStringMappedVector or DualMappedPointerVector is left by an exception, the container is as it was before the call and all later calls answer accordingly.", "quantifier": "every state reached by guarded calls, every call, every point at which it can be left, every later sequence of guarded calls, the three classes, both storage kinds", "why_tests_cant": "As for C78; with two keys there are twice as many points between which the call can be left.", "anchors": ["gmlc/containers/DualMappedVector.hpp:53-263", "gmlc/containers/DualStringMappedVector.hpp:53-270", "gmlc/containers/DualMappedPointerVector.hpp:52-209"]}
{"id": "C80", "title": "Mapped vectors: an exception out of a removal leaves the container consistent", "statement": "If removeIndex (or remove by key of the two-key classes) is left by an exception while a key is copied, the container is as it was before the call or the element and its keys are removed.", "quantifier": "every reachable state, every index, every iteration order of the lookup maps and every point at which the loop is left", "why_tests_cant": "A key copy that throws in the middle of the loop depends on the iteration order and on memory; no test provokes it.", "anchors": ["gmlc/containers/MappedVector.hpp:132-150", "gmlc/containers/MappedPointerVector.hpp:134-152", "gmlc/containers/DualMappedVector.hpp:300-357", "gmlc/containers/DualStringMappedVector.hpp:307-364", "gmlc/containers/DualMappedPointerVector.hpp:248-334"]}
{"id": "C81", "title": "String mapped vectors: an exception while a search term is stored leaves the container usable", "statement": "If storing the text of a search term is left by an exception, all later calls, look-ups and the destructor work, and the dictionary is what it was.", "quantifier": "every history of construction, moves, destruction and member calls of any number of containers, any text, every point at which storing the text can be left", "why_tests_cant": "Needs a failing allocation at one particular place; the damage shows only in the destructor.", "anchors": ["gmlc/containers/StringMappedVector.hpp:41-83", "gmlc/containers/DualStringMappedVector.hpp:53-270", "gmlc/containers/StableBlockVector.hpp:135-157"]}
{"id": "C82", "title": "Iterators of StableBlockVector stay valid while elements are added", "statement": "An iterator to an element of a StableBlockVector, made before elements are added or removed behind it, still reads that element, moves to the elements around it and equals the iterator that begin() + n gives, as long as the element exists.", "quantifier": "every element type and block size, every sequence of calls before and while the iterator is held, every position, every distance moved", "why_tests_cant": "The table of blocks is replaced only after 64 blocks; until then everything works, and later reads still work, so only a move across a block boundary after the 64th block shows it.", "anchors": ["gmlc/containers/StableBlockVector.hpp:135-157", "gmlc/containers/StableBlockVector.hpp:300-340", "gmlc/containers/StableBlockVector.hpp:378-396", "gmlc/containers/BlockIterator.hpp:21-158"]}
{"id": "C83", "title": "Iterators of StableBlockDeque stay valid while elements are added", "statement": "An iterator to an element of a StableBlockDeque, made before elements are added or removed at either end, still reads that element, moves to the elements around it and equals the iterator that begin() + m gives (m the index the element has now), as long as the element exists.", "quantifier": "every element type and block size, every sequence of calls before and while the iterator is held, every position, every distance moved", "why_tests_cant": "The table is shifted in place or replaced depending on how many blocks were used at each end; a shift makes the iterator move silently to a wrong element, which a test of another length does not see.", "anchors": ["gmlc/containers/StableBlockDeque.hpp:180-250", "gmlc/containers/StableBlockDeque.hpp:419-470", "gmlc/containers/StableBlockDeque.hpp:475-552", "gmlc/containers/BlockIterator.hpp:21-158"]}
{"id": "C84", "title": "SimpleQueue: an operation that throws has no effect", "statement": "If push, emplace, pushVector, pop, peek or reserve of SimpleQueue is left by an exception of an element operation or of an allocation, the queue holds what it would hold if that call had not been made, whatever other threads do meanwhile.", "quantifier": "any number of threads and calls, every interleaving, every point at which an element operation or allocation can throw, every state reached before", "why_tests_cant": "Needs elements that throw at a chosen operation combined with an interleaving; std::reverse runs only when the pull vector has just become empty.", "anchors": ["gmlc/containers/SimpleQueue.hpp:109-189", "gmlc/containers/SimpleQueue.hpp:199-230", "gmlc/containers/SimpleQueue.hpp:236-252"]}
{"id": "C85", "title": "SimpleQueue: exceptions leave no lock held and no thread stuck", "statement": "Whatever element operation throws, and wherever, the locks are released, some thread inside an operation can always take a step, every operation takes a bounded number of steps, no two threads access a vector at once and pop never takes an element of an empty vector.", "quantifier": "any number of threads and calls, every interleaving, every point at which an element operation or allocation can throw, swaps in std::reverse included", "why_tests_cant": "A lock that stays held after an exception is seen only by a later call on the same path; all combinations of throw points and interleavings cannot be run.", "anchors": ["gmlc/containers/SimpleQueue.hpp:89-115", "gmlc/containers/SimpleQueue.hpp:120-252"]}
{"id": "C86", "title": "StableBlockDeque remains usable after being moved from", "statement": "After a deque is moved from (by construction or by assignment) it is empty and can be pushed to at both ends, iterated, shrunk, cleared, assigned to and destroyed like a new deque.", "quantifier": "every element type and block size, every history of the source, every history afterwards", "why_tests_cant": "Whether a call is safe depends on how full the last block was and on spare blocks at the moment of the move.", "anchors": ["gmlc/containers/StableBlockDeque.hpp:133-175", "gmlc/containers/StableBlockDeque.hpp:354-361", "gmlc/containers/StableBlockDeque.hpp:419-549"]}
{"id": "C87", "title": "Moving a blocking queue transfers its elements and leaves two usable queues", "statement": "Moving a BlockingQueue or BlockingPriorityQueue that no thread is using gives the destination the same elements in the same order and leaves the source empty; afterwards any number of threads can use both, and empty() of both is right.", "quantifier": "every state the source can be in when no thread is using it, any number of threads afterwards, every interleaving", "why_tests_cant": "The states at rest include those that only overlapping calls produce; queueEmptyFlag is recomputed from part of the state.", "anchors": ["gmlc/containers/BlockingQueue.hpp:69-85", "gmlc/containers/BlockingPriorityQueue.hpp:75-93"]}
{"id": "C88", "title": "A removal from StableBlockDeque that cannot get memory leaves a usable deque", "statement": "If pop_back() or pop_front() of a StableBlockDeque is left by the exception of a failed memory request (the list of free blocks needs a table), the deque is as before the call or has lost exactly the element to be removed, and every later call, including its destruction, behaves accordingly.", "quantifier": "every element type and block size, every history before the failing removal", "why_tests_cant": "Needs an allocation failure inside a removal, at the moment a block becomes empty and the list of free blocks is full.", "anchors": ["gmlc/containers/StableBlockDeque.hpp:201-214", "gmlc/containers/StableBlockDeque.hpp:238-251", "gmlc/containers/StableBlockDeque.hpp:551-567"]}
{"id": "C89", "title": "Assigning a container to itself is harmless", "statement": "For a CircularBuffer, StackBuffer, StableBlockVector or StableBlockDeque x: x = x leaves x unchanged, and x = std::move(x) leaves x in a state in which every call without precondition works.", "quantifier": "every program over any number of buffers before and after (buffers); every history, element type and block size (block containers)", "why_tests_cant": "Self assignment matters in states (full table, spare blocks, offsets wrapped) that single examples do not reach, and the undefined memcpy is invisible in practice.", "anchors": ["gmlc/containers/CircularBuffer.hpp:182-214", "gmlc/containers/StackBuffer.hpp:186-215", "gmlc/containers/StableBlockVector.hpp:108-131", "gmlc/containers/StableBlockDeque.hpp:149-175"]}
{"id": "C90", "title": "A WorkBlock can be watched, waited for and reused while a WorkQueue works on it", "statement": "While a worker runs execute() of a WorkBlock, other threads may call isFinished(), wait(), getReturnVal() and get_future(), and after wait() has returned call reset() and hand the block in again: there is no data race, isFinished() is true once wait() has returned, and a block handed in after reset() is run, so that a following wait() returns.", "quantifier": "every schedule of any number of threads and calls", "why_tests_cant": "The window between the result becoming ready and finished = true is a few instructions; a test that hits it once in a million runs proves nothing when it passes.", "anchors": ["gmlc/containers/WorkQueue.hpp:85-93", "gmlc/containers/WorkQueue.hpp:119-139", "gmlc/containers/WorkQueue.hpp:59-139"]}
{"id": "C91", "title": "WorkBlock calls that do not conflict are linearizable", "statement": "If no call on a WorkBlock overlaps a call that changes what it uses, then every execution is linearizable with respect to an ideal block (a list of futures, the last one current), has no data race, runs each work at most once per future, and no thread is stuck except in a wait for a work that has not run.", "quantifier": "every such schedule of any number of threads and calls, every work", "why_tests_cant": "It is a statement about all interleavings of unboundedly many calls.", "anchors": ["gmlc/containers/WorkQueue.hpp:59-139", "gmlc/containers/WorkQueue.hpp:145-213"]}
{"id": "C92", "title": "Destroying an unused WorkQueue ends, with every worker joined", "statement": "If no thread is inside a call of a WorkQueue, its destructor returns whatever the workers are doing and however they are scheduled; when it has returned every worker thread has ended and has been joined, so destroying the thread objects does not terminate the program and no thread touches the destroyed queue.", "quantifier": "every history of calls by any number of threads before (including earlier and overlapping closeWorkerQueue calls), every number of workers, every schedule", "why_tests_cant": "A worker may be at any line of its loop when the destructor starts; only a few of these moments ever occur in tests.", "anchors": ["gmlc/containers/WorkQueue.hpp:298-306", "gmlc/containers/WorkQueue.hpp:313-336", "gmlc/containers/WorkQueue.hpp:467-490"]}
{"id": "C93", "title": "An empty CircularBuffer accepts what a new one accepts", "statement": "When every block has been popped, a circular buffer accepts a block of n bytes exactly if a newly created buffer of the same capacity would, that is if n + 4 bytes fit the capacity.", "quantifier": "every capacity, every history of calls that stayed inside the memory, every block size", "why_tests_cant": "It depends on where earlier blocks of particular sizes left the read position; tests start from new buffers.", "anchors": ["gmlc/containers/CircularBuffer.hpp:30-46", "gmlc/containers/CircularBuffer.hpp:48-86", "gmlc/containers/CircularBuffer.hpp:101-121"]}
{"id": "C94", "title": "Operations of the blocking queues take a bounded number of steps", "statement": "A call of push, try_pop, try_peek, size, clear, reserve or empty takes a fixed number of own steps whatever the other threads do; a pop takes at most one more bounded round for each spurious wakeup or timeout of its own and each push of anybody; pop(timeout) whose time is up returns after a fixed number of own steps; so without new calls everything comes to rest, with every thread returned or waiting.", "quantifier": "every interleaving of any number of threads, both classes, any element values", "why_tests_cant": "It is a statement about the worst schedule; tests see average ones and cannot tell a very long run from an endless one.", "anchors": ["gmlc/containers/BlockingQueue.hpp:115-188", "gmlc/containers/BlockingQueue.hpp:213-303", "gmlc/containers/BlockingQueue.hpp:320-353", "gmlc/containers/BlockingPriorityQueue.hpp:114-234", "gmlc/containers/BlockingPriorityQueue.hpp:261-435"]}
{"id": "C95", "title": "Work may use the queue that executes it", "statement": "A piece of work may call any operation of the WorkQueue that executes it, to any depth: what is known of calls by other threads remains true, no thread gets stuck, every call returns after a bounded number of steps once nothing new is called, and the queue can be closed and destroyed afterwards.", "quantifier": "every number of workers, every nesting of calls made by work, every schedule", "why_tests_cant": "Work that uses the queue interacts with the locks, the wait for the workers and the destructor; the tests submit work that does not.", "anchors": ["gmlc/containers/WorkQueue.hpp:85-93", "gmlc/containers/WorkQueue.hpp:301-336", "gmlc/containers/WorkQueue.hpp:344-403", "gmlc/containers/WorkQueue.hpp:467-490"]}
{"id": "C96", "title": "A WorkQueue survives exceptions for lack of memory", "statement": "If an addWorkBlock or closeWorkerQueue throws because memory has run out, the queue is as if the call had done nothing: a block whose submission threw is never executed, all other blocks are executed as before, no thread gets stuck, and the queue can still be closed and destroyed. If the constructor cannot start a thread, the exception reaches its caller.", "quantifier": "every number of workers, every schedule, exceptions at every allocation of addWorkBlock and closeWorkerQueue, any number of them", "why_tests_cant": "Exceptions from allocations at chosen moments of concurrent calls cannot be provoked by the tests.", "anchors": ["gmlc/containers/WorkQueue.hpp:284-296", "gmlc/containers/WorkQueue.hpp:301-336", "gmlc/containers/WorkQueue.hpp:344-403", "gmlc/containers/SimpleQueue.hpp:120-189"]}
{"id": "C97", "title": "An AirLock survives exceptions of its elements", "statement": "If assigning an element in try_load or load, or moving it out in try_unload, throws, the call has no effect and releases the lock: the histories are those of an atomic slot in which some calls throw. There is no data race or deadlock, and no loader is left waiting in front of a free slot.", "quantifier": "any number of threads, every schedule, exceptions at every assignment and move of elements, any number of them", "why_tests_cant": "Exceptions at chosen moments of interleaved calls cannot be provoked by the tests, and a lost wake-up shows only in some schedules.", "anchors": ["gmlc/containers/AirLock.hpp:41-54", "gmlc/containers/AirLock.hpp:59-73", "gmlc/containers/AirLock.hpp:79-92"]}
{"id": "C98", "title": "An AirLock always comes to rest, and each unload lets one loader in", "statement": "n calls take at most 14n steps altogether (6 more per spurious wake-up); try_load, try_unload and isLoaded take at most 6, 7 and 1 steps of their own, load at most 6, plus 5 for each time it is notified and 6 for each spurious wake-up. When no operation is called any more everything stops: everybody still inside then waits for a full slot. If then one try_unload is called, it returns the element, exactly one waiting loader returns, its element is in the slot, and the others still wait.", "quantifier": "any number of threads, every schedule; with and without exceptions", "why_tests_cant": "Termination and step bounds over all schedules cannot be tested.", "anchors": ["gmlc/containers/AirLock.hpp:41-97"]}
{"id": "C99", "title": "Assignments and constructions of the block containers that are left by an exception", "statement": "If assign, move_assign or copy assignment of a StableBlockVector or StableBlockDeque is left by an exception, the container holds elements assigned so far and elements it had before, and can be used on and destroyed. If a constructor is left by an exception, the elements made so far are destroyed and their memory is given back.", "quantifier": "all block sizes, element types, histories before the call, sources, and positions of the element that fails; every later history", "why_tests_cant": "The tests use elements that never throw; the position of the failure relative to block borders and to the old size gives unboundedly many cases.", "anchors": ["gmlc/containers/StableBlockVector.hpp:51-90", "gmlc/containers/StableBlockVector.hpp:108-112", "gmlc/containers/StableBlockVector.hpp:174-214", "gmlc/containers/StableBlockDeque.hpp:51-131", "gmlc/containers/StableBlockDeque.hpp:149-153", "gmlc/containers/StableBlockDeque.hpp:253-317"]}
{"id": "C100", "title": "StackBuffer accesses its index records at aligned addresses", "statement": "Every dataIndex record that StackBufferRaw or StackBuffer reads or writes (in push, pop, nextDataSize and reverse) is at an address divisible by 4, the alignment of int32_t.", "quantifier": "all capacities, memory addresses, sequences of calls and of constructions, copies, moves, assignments and resizes", "why_tests_cant": "On x86 an unaligned int access works, so a test sees nothing; whether it happens depends on the capacity of the last construction or resize.", "anchors": ["gmlc/containers/StackBuffer.hpp:21-27", "gmlc/containers/StackBuffer.hpp:45-50", "gmlc/containers/StackBuffer.hpp:71-134", "gmlc/containers/StackBuffer.hpp:145-150", "gmlc/containers/StackBuffer.hpp:216-271"]}
{"id": "C101", "title": "StackBuffer forms no pointer outside its memory", "statement": "Every pointer that StackBufferRaw or StackBuffer computes points into its memory block or one past its end, also when it is not used for an access.", "quantifier": "all capacities, block sizes, sequences of calls and of constructions, copies, moves, assignments and resizes", "why_tests_cant": "A pointer outside its array that is only stored has no visible effect in a run; it is undefined all the same.", "anchors": ["gmlc/containers/StackBuffer.hpp:45-50", "gmlc/containers/StackBuffer.hpp:71-134", "gmlc/containers/StackBuffer.hpp:145-271"]}
{"id": "C102", "title": "CircularBuffer forms no pointer outside its memory", "statement": "Every pointer that CircularBufferRaw or CircularBuffer computes points into its memory block or one past its end, in every execution that has accessed only valid memory so far.", "quantifier": "all capacities, block sizes, sequences of calls and of constructions, copies, moves, assignments and resizes, also ones that lose or replay blocks", "why_tests_cant": "A pointer outside its array that is only stored has no visible effect in a run; it is undefined all the same.", "anchors": ["gmlc/containers/CircularBuffer.hpp:21-124", "gmlc/containers/CircularBuffer.hpp:140-290"]}
{"id": "C103", "title": "Arguments are moved from exactly once, and only when they are taken", "statement": "A push or emplace of SimpleQueue, BlockingQueue or BlockingPriorityQueue and a load of AirLock forward their argument exactly once on whatever path they take; try_load forwards it once when it returns true and not at all when it returns false, so the caller of a refused try_load keeps the object.", "quantifier": "all numbers of threads, schedules, spurious wake-ups, starting states and argument values", "why_tests_cant": "Each function has several paths that forward the argument, chosen by what other threads do between two lock operations; a test runs few of these interleavings and usually passes copies.", "anchors": ["gmlc/containers/SimpleQueue.hpp:120-189", "gmlc/containers/BlockingQueue.hpp:115-187", "gmlc/containers/BlockingPriorityQueue.hpp:114-234", "gmlc/containers/AirLock.hpp:41-73"]}
{"id": "C104", "title": "CircularBuffer and StackBuffer when memory runs out", "statement": "A call of CircularBuffer or StackBuffer (constructor, copy, copy assignment, resize) that is left by std::bad_alloc has no effect: whatever is done afterwards goes as if the call had not been made.", "quantifier": "all programs over any number of buffers, all choices of the calls during which memory runs out, all sizes and contents", "why_tests_cant": "The tests never run out of memory; what a failed call leaves behind shows only in later calls on other objects.", "anchors": ["gmlc/containers/CircularBuffer.hpp:141-145", "gmlc/containers/CircularBuffer.hpp:164-180", "gmlc/containers/CircularBuffer.hpp:202-245", "gmlc/containers/CircularBuffer.hpp:314-329", "gmlc/containers/StackBuffer.hpp:145-149", "gmlc/containers/StackBuffer.hpp:166-184", "gmlc/containers/StackBuffer.hpp:202-242", "gmlc/containers/StackBuffer.hpp:311-329"]}
{"id": "C105", "title": "Functions declared noexcept ask for no memory", "statement": "A function of StableBlockVector, StableBlockDeque, CircularBuffer or StackBuffer that is declared noexcept, for elements that are copied and destroyed without exceptions, asks for no memory, so std::bad_alloc cannot leave it and end the program.", "quantifier": "all element types, block sizes, heaps and containers; all programs for the moves", "why_tests_cant": "The tests never run out of memory, and a request that is granted leaves no trace in the contents.", "anchors": ["gmlc/containers/StableBlockVector.hpp:48-54", "gmlc/containers/StableBlockVector.hpp:92-172", "gmlc/containers/StableBlockVector.hpp:216-260", "gmlc/containers/StableBlockDeque.hpp:133-176", "gmlc/containers/StableBlockDeque.hpp:319-349", "gmlc/containers/CircularBuffer.hpp:140-201", "gmlc/containers/StackBuffer.hpp:144-201", "gmlc/containers/StackBuffer.hpp:302-308"]}
{"id": "C106", "title": "getReturnVal reports the outcome of the work", "statement": "WorkBlock::getReturnVal() returns only after the work of the block has been run and has returned; it throws the exception of a work that threw, and throws if the work was given up and will never be run.", "quantifier": "all programs over any number of work blocks and packaged tasks, all choices of works that throw; WorkBlock<T> and WorkBlock<void>", "why_tests_cant": "The tests run works that return; which of the many orders of move, reset, update and execute make a future ready without the work having run cannot be tried one by one.", "anchors": ["gmlc/containers/WorkQueue.hpp:59-139", "gmlc/containers/WorkQueue.hpp:145-213"]}
{"id": "C107", "title": "Comparing iterators with const_iterators", "statement": "begin() + i of a StableBlockVector or StableBlockDeque as an iterator and begin() + k as a const_iterator are equal (==) just when i = k, and != is the opposite, for all positions including end(); an iterator to an element converts to true.", "quantifier": "every element type and block size, every sequence of calls, all positions, all contents of table entries never written; containers whose end() can be had (C18)", "why_tests_cant": "The comparison looks at table entries that were never written, whose contents a test cannot choose, and treats end() of an empty container specially.", "anchors": ["gmlc/containers/BlockIterator.hpp:47-73", "gmlc/containers/BlockIterator.hpp:123-132", "gmlc/containers/StableBlockVector.hpp:300-344", "gmlc/containers/StableBlockDeque.hpp:419-470"]}
{"id": "C108", "title": "Arguments that are elements of the container itself", "statement": "For StableBlockVector and StableBlockDeque, push_back(v[n]) and push_front(v[n]), copying or moving, leave what they would leave had the element been copied or moved out beforehand, also when the call makes the container grow; assign(v.begin()+a, v.begin()+b), and move_assign when a > 0, leave exactly the elements that were at a..b-1, at the addresses of the first b-a elements. Whatever is called afterwards behaves as it does for that sequence.", "quantifier": "every element type, whatever a moved-from element holds, every block size, every sequence of calls before and after, all positions; for the deque, states in which the call with a value is defined (C22, C24)", "why_tests_cant": "Reading the argument after the container has changed shows only for particular positions and fill levels; a test uses an unrelated value.", "anchors": ["gmlc/containers/StableBlockVector.hpp:144-215", "gmlc/containers/StableBlockDeque.hpp:188-320"]}
{"id": "C109", "title": "Growing the block containers has bounded average cost", "statement": "Over any history of calls, the pushes of a StableBlockVector or StableBlockDeque copy on average a bounded number of entries of the table of blocks: the total is at most a constant times the number of calls.", "quantifier": "every block size, every history of calls, no bound on sizes", "why_tests_cant": "A test sees results, not the number of pointers moved; the expensive pattern needs a particular fill level of the table kept up over many calls.", "anchors": ["gmlc/containers/StableBlockVector.hpp:378-396", "gmlc/containers/StableBlockDeque.hpp:475-549"]}
{"id": "C110", "title": "Each element of a queue is reversed at most once", "statement": "In any concurrent use of a SimpleQueue, BlockingQueue or BlockingPriorityQueue the vectors reversed when the pull side is refilled have in total at most as many elements as were pushed (priority elements not counted), so popping costs amortised constant work; a single pop may still reverse everything pushed so far.", "quantifier": "every schedule of any number of threads, every start state at rest, any number of elements", "why_tests_cant": "The bound is on the sum over all interleavings of refills with pushes; a test cannot observe how often an element is moved.", "anchors": ["gmlc/containers/SimpleQueue.hpp:236-252", "gmlc/containers/BlockingQueue.hpp:320-336", "gmlc/containers/BlockingPriorityQueue.hpp:398-414"]}
{"id": "C111", "title": "getWorkerCount", "statement": "getWorkerCount of a WorkQueue returns the number of workers as long as closeWorkerQueue has not been called and 0 after closeWorkerQueue has returned; while closeWorkerQueue is running it may return either, but after 0 never again anything else.", "quantifier": "every number of workers, every schedule of any number of threads", "why_tests_cant": "The value changes in the middle of closeWorkerQueue; what concurrent callers see depends on the interleaving.", "anchors": ["gmlc/containers/WorkQueue.hpp:311", "gmlc/containers/WorkQueue.hpp:313-317"]}
{"id": "C112", "title": "The buffers lose no memory", "statement": "In every program over CircularBuffers (and over StackBuffers) every array that was asked for and has not been given back belongs to exactly one buffer, and when no buffer is left every array has been given back, also if calls were left by std::bad_alloc or runtime_error.", "quantifier": "all programs over any number of buffers that run without undefined behaviour: constructions, copies, moves, assignments, swaps, resizes, pushes and pops in any order, any calls failing for lack of memory", "why_tests_cant": "A leak shows only with a leak checker and only on the sequences of resizes, assignments and failures that were run; arrays of length 0 are rarely tried.", "anchors": ["gmlc/containers/CircularBuffer.hpp:141-214", "gmlc/containers/CircularBuffer.hpp:314-329", "gmlc/containers/StackBuffer.hpp:145-215", "gmlc/containers/StackBuffer.hpp:311-329"]}
{"id": "C113", "title": "A function that throws out of apply, modify or transform", "statement": "If the function given to apply, modify or transform throws at some element, the elements before it have the values the function gave them, those after it have not been touched, the search terms, size and places of all elements are unchanged, and the container works on as one holding these values.", "quantifier": "all six mapped vectors, both kinds of storage, every state in which the loop is defined (C36), every function, also one with a state of its own, throwing at any call", "why_tests_cant": "Needs a throwing function at every position in every state; tests use functions that do not throw.", "anchors": ["gmlc/containers/MappedVector.hpp:171-190", "gmlc/containers/MappedPointerVector.hpp:172-188", "gmlc/containers/StringMappedVector.hpp:160-181", "gmlc/containers/DualMappedVector.hpp:374-395", "gmlc/containers/DualStringMappedVector.hpp:381-400", "gmlc/containers/DualMappedPointerVector.hpp:338-354"]}
{"id": "C114", "title": "Work that throws out of addWorkBlock", "statement": "In a WorkQueue without workers, where addWorkBlock executes the blocks itself, an execute() that throws ends that call only: the blocks before it were executed and are finished, those behind it are not executed by that call, the state is that of a run without the exception, no other call waits because of it, and blocks submitted later, also the one that threw, are run and finished as before.", "quantifier": "every number of threads and calls, every interleaving, any blocks throwing at any of their executions, every reachable state", "why_tests_cant": "Needs throwing work at every position in every interleaving; no test has a block that throws.", "anchors": ["gmlc/containers/WorkQueue.hpp:85-93", "gmlc/containers/WorkQueue.hpp:344-403"]}
{"id": "C115", "title": "Copies and moves of the mapped vectors", "statement": "A copy of a MappedVector or DualMappedVector (by construction or assignment) holds the elements and search terms of its source, and afterwards neither is affected by what is done to the other; a move hands elements and terms over and leaves a container that can be destroyed, assigned to, or cleared and used again; the pointer classes, which can only be moved, likewise. When all containers are destroyed, all memory has been given back.", "quantifier": "every program over any number of containers: default construction, copies, moves, assignments (also to itself), every member call, destruction, in any order; both storages; whatever the moved-from standard containers hold", "why_tests_cant": "The tests never copy a mapped vector and move one once; independence needs every later use of either object.", "anchors": ["gmlc/containers/MappedVector.hpp:230-239", "gmlc/containers/DualMappedVector.hpp:427-441", "gmlc/containers/MappedPointerVector.hpp:29-31", "gmlc/containers/DualMappedPointerVector.hpp:36-44", "gmlc/containers/StableBlockVector.hpp:82-131"]}
{"id": "C116", "title": "WorkQueue has no data race", "statement": "Whatever the users and workers of a WorkQueue do at the same time, no two of them access the same non-atomic data (the vectors of the three queues, the thread objects, the finished flags of the work blocks) with one of them writing.", "quantifier": "every number of workers, every interleaving of any number of calling threads, every sequence of calls", "why_tests_cant": "A data race is undefined behaviour that usually goes unnoticed; a sanitizer sees only the schedules that happen.", "anchors": ["gmlc/containers/WorkQueue.hpp:313-336", "gmlc/containers/WorkQueue.hpp:344-404", "gmlc/containers/WorkQueue.hpp:437-490", "gmlc/containers/WorkQueue.hpp:496-517", "gmlc/containers/WorkQueue.hpp:85-93"]}
{"id": "C117", "title": "The pointer vectors own their objects", "statement": "MappedPointerVector and DualMappedPointerVector: at every moment each object made for or given to a container has exactly one owner (a container element or a unique_ptr of the user); a call destroys exactly the objects it replaces, removes or clears, each once, and no others; a refused insert leaves the offered unique_ptr with the caller; pointers returned by find, operator[] and back point to living objects; when the containers and the user's pointers are gone every object has been destroyed exactly once.", "quantifier": "every program of constructions, moves, move assignments, calls and destructions of any number of containers of one class, every content, every key type, every order of the map loops", "why_tests_cant": "A double delete or a leak after some mixture of refused insertions, replacements and removals shows only for that mixture, and leaks do not fail a test.", "anchors": ["gmlc/containers/MappedPointerVector.hpp:28-200", "gmlc/containers/DualMappedPointerVector.hpp:35-367"]}
{"id": "C118", "title": "User code run by a queue may use the queue", "statement": "SimpleQueue, BlockingQueue and BlockingPriorityQueue: the destructors of the elements that clear() destroys, and the callback of popOrCall, may call operations of the same queue; the queue stays an atomic queue, and no thread comes to wait for a lock that is never released.", "quantifier": "every interleaving of any number of threads, every operation called from the user code, every depth of nesting", "why_tests_cant": "The tests have elements without destructors and callbacks that push once; the calls that wait for ever cannot be put in a test that ends.", "anchors": ["gmlc/containers/SimpleQueue.hpp:96-103", "gmlc/containers/BlockingQueue.hpp:91-98", "gmlc/containers/BlockingQueue.hpp:277-303", "gmlc/containers/BlockingPriorityQueue.hpp:51-61", "gmlc/containers/BlockingPriorityQueue.hpp:350-386"]}
{"id": "C119", "title": "Destructors of discarded work may use the WorkQueue", "statement": "closeWorkerQueue throws away the blocks that are still waiting; a queue that holds the last pointer to a block destroys it then. The destructor of such a block (or of what its function captured) may call the WorkQueue: the guarantees about calls by other threads remain, and the shutdown still comes to an end.", "quantifier": "every number of workers, every interleaving, every operation called by a destructor, every nesting", "why_tests_cant": "The tests close queues that are empty or whose blocks are held elsewhere; the calls that wait for ever cannot be put in a test that ends.", "anchors": ["gmlc/containers/WorkQueue.hpp:313-336", "gmlc/containers/WorkQueue.hpp:344-404", "gmlc/containers/SimpleQueue.hpp:96-103"]}
{"id": "C120", "title": "Functions given to apply, modify or transform may use the container", "statement": "The function a mapped vector calls for each of its elements may itself call the container (insert, find, assign, remove, clear, apply, ...). Each element the container had when the loop began is given to the function once and in order, the function's own calls do what they do outside the loop, and the loop comes to its end without undefined behaviour.", "quantifier": "every container state reached, every function (any program of reads, writes, throws and calls that may depend on what it read), every element and key type", "why_tests_cant": "The tests pass functions that look at one element only; whether a function that adds elements breaks the loop depends on the size and the room left.", "anchors": ["gmlc/containers/MappedVector.hpp:169-193", "gmlc/containers/DualMappedVector.hpp:372-397", "gmlc/containers/StringMappedVector.hpp:158-183", "gmlc/containers/DualStringMappedVector.hpp:379-402", "gmlc/containers/MappedPointerVector.hpp:170-190", "gmlc/containers/DualMappedPointerVector.hpp:336-356", "gmlc/containers/BlockIterator.hpp:81-87", "gmlc/containers/BlockIterator.hpp:139-147"]}
{"id": "C121", "title": "Move assignment to a blocking queue that threads are using", "statement": "A BlockingQueue or BlockingPriorityQueue may be the destination of a move assignment while threads use it: it behaves like an atomic queue whose content is replaced at that moment, no operation crashes or is blocked by it, and a consumer that waits is woken when the assignment brings elements.", "quantifier": "all numbers of threads, all interleavings of their operations with any number of assignments, all contents of the sources", "why_tests_cant": "The tests assign to queues nobody is using; a wrong order needs an assignment between the two locks of a push, a lost wakeup needs a consumer already waiting.", "anchors": ["gmlc/containers/BlockingQueue.hpp:77-85", "gmlc/containers/BlockingPriorityQueue.hpp:84-93", "gmlc/containers/BlockingQueue.hpp:115-150", "gmlc/containers/BlockingQueue.hpp:213-237"]}
{"id": "C122", "title": "Move assignment to a SimpleQueue that threads are using", "statement": "A SimpleQueue may be the destination of a move assignment while threads use it: it behaves like an atomic FIFO queue whose content is replaced by that of the source at that moment, no operation crashes or is blocked for ever, and no thread accesses the vectors during the assignment.", "quantifier": "all numbers of threads, all interleavings of their operations with any number of assignments, all sources a program can have", "why_tests_cant": "The tests assign to queues nobody is using; whether a push that is between its two locks keeps the order depends on the interleaving.", "anchors": ["gmlc/containers/SimpleQueue.hpp:69-77", "gmlc/containers/SimpleQueue.hpp:120-140", "gmlc/containers/SimpleQueue.hpp:199-213", "gmlc/containers/SimpleQueue.hpp:236-252"]}
{"id": "C123", "title": "Constructing a WorkQueue", "statement": "WorkQueue(n) has n running workers (one more than the hardware has for a negative n), each in its own thread object; if memory or a thread is refused the caller gets an exception and nothing is left behind.", "quantifier": "every thread count, every number of hardware threads, every pattern of refused requests", "why_tests_cant": "The tests never run out of threads; which thread is refused decides what happens.", "anchors": ["gmlc/containers/WorkQueue.hpp:284-296", "gmlc/containers/WorkQueue.hpp:512"]}
{"id": "C124", "title": "Moving a queue onto itself", "statement": "x = std::move(x) of a SimpleQueue, BlockingQueue or BlockingPriorityQueue, also while other threads use it, neither deadlocks nor makes an operation crash, and the queue holds what it held.", "quantifier": "all numbers of threads, all interleavings of their operations with any number of self-moves", "why_tests_cant": "No test moves a queue onto itself, let alone one in use; what is left depends on the standard library.", "anchors": ["gmlc/containers/SimpleQueue.hpp:69-78", "gmlc/containers/BlockingQueue.hpp:77-85", "gmlc/containers/BlockingPriorityQueue.hpp:84-93"]}
