{
 "claims": [
  {
   "property": "C01",
   "status": "partial",
   "theorems": [
    "C01_circ_fifo_partial",
    "C01_circ_fifo_disciplined_partial",
    "C01_circ_guard_tight",
    "C01_circ_fifo_refuted_loss",
    "C01_circ_fifo_refuted_replay"
   ],
   "note": "False as stated: an exact fill makes write==read (data lost), and filling to within 8 bytes of the end with the reader at 0 replays data. FIFO holds for all histories whose accepted pushes meet push_safe; the guard is tight (breaking it always leads to a non-FIFO continuation); a caller-level rule (bytes held + n + 4 <= cap - M - 4) guarantees it and that pushes are accepted."
  },
  {
   "property": "C02",
   "status": "partial",
   "theorems": [
    "C02_circ_memory_partial",
    "C02_circ_memory_refuted"
   ],
   "note": "False as stated: the wrap marker is written at the write offset even if fewer than 4 bytes remain. Holds under the guard of C01."
  },
  {
   "property": "C03",
   "status": "proved",
   "theorems": [
    "C03_circ_space_predicts_push",
    "C03_circ_refused_push_changes_nothing"
   ],
   "note": "Holds in every state, reachable or not."
  },
  {
   "property": "C04",
   "status": "partial",
   "theorems": [
    "C04_circ_short_pop_partial",
    "C04_circ_short_pop_any",
    "C04_circ_next_size_refuted"
   ],
   "note": "A short pop changes nothing but the read position, in any state; the next pop then does what it would have done. '0 iff nothing is queued' is false after an exact fill (C04_circ_next_size_refuted); everything holds in every state reached by a history meeting the C01 guard."
  },
  {
   "property": "C05",
   "status": "partial",
   "theorems": [
    "C05_circ_resize_partial",
    "C05_circ_resize_refuted"
   ],
   "note": "False as stated: shrinking to less than 8 bytes above the data replays it. Holds under resize_safe."
  },
  {
   "property": "C06",
   "status": "partial",
   "theorems": [
    "C06_circ_ownership_partial",
    "C06_circ_ownership_disciplined_partial",
    "C06_circ_ownership_refuted"
   ],
   "note": "False as stated: a copy of a default-constructed buffer holds a dangling pointer and move-assigning into it frees twice. Holds for any number of buffers and any program that avoids this and meets the C01/C05 guards; self copy-assignment is treated in C89."
  },
  {
   "property": "C07",
   "status": "proved",
   "theorems": [
    "C07_stack_lifo"
   ],
   "note": "StackBufferRaw, all capacities, all call sequences; the trace spec also fixes push/isSpaceAvailable/nextDataSize/empty/count/capacity results."
  },
  {
   "property": "C08",
   "status": "proved",
   "theorems": [
    "C08_stack_memory",
    "C08_stack_push_frame"
   ],
   "note": "For StackBufferRaw over exactly n bytes. For the owning StackBuffer see C12."
  },
  {
   "property": "C09",
   "status": "proved",
   "theorems": [
    "C09_stack_space_predicts_push",
    "C09_stack_push_bad_size",
    "C09_stack_push_succeeds",
    "C09_stack_short_pop"
   ],
   "note": ""
  },
  {
   "property": "C10",
   "status": "partial",
   "theorems": [
    "C10_stack_resize_partial",
    "C10_stack_resize_refuted"
   ],
   "note": "Missing: 'throws only when the data does not fit' is false, since resizing a non-empty stack sets the write position to the new size. Content preservation, the unchanged state after a throw, and the exact throw condition for stacks never resized/reversed since empty are proved."
  },
  {
   "property": "C11",
   "status": "partial",
   "theorems": [
    "C11_stack_resize_empty_partial",
    "C11_stack_resize_space_refuted",
    "C11_stack_resize_space_unusable"
   ],
   "note": "False for non-empty stacks: no push at all is accepted after such a resize. True for empty stacks."
  },
  {
   "property": "C12",
   "status": "partial",
   "theorems": [
    "C12_stack_ownership_no_move_assign_partial",
    "C12_stack_ownership_partial",
    "C12_stack_moved_from_refuted"
   ],
   "note": "False as stated: the move assignment leaves actualCapacity, so a later resize of the moved-from stack reports success without memory and a push writes through null. Proved for all programs without move assignment and, with move assignment, for programs that do not resize/copy-assign a moved-from stack within its stale capacity. Self copy-assignment is treated in C89."
  },
  {
   "property": "C13",
   "status": "proved",
   "theorems": [
    "C13_vector_sequence",
    "C13_vector_sized"
   ],
   "note": "All block exponents N in 0..30 (N=31 does not compile: the block size constant is narrowed). All operations named in the statement, on one vector; copying is C15, walking it with iterators C17/C18."
  },
  {
   "property": "C14",
   "status": "proved",
   "theorems": [
    "C14_vector_stable",
    "C14_vector_distinct",
    "C14_vector_contents",
    "C14_vector_move_keeps"
   ],
   "note": ""
  },
  {
   "property": "C15",
   "status": "partial",
   "theorems": [
    "C15_vector_lifetime_partial",
    "C15_vector_lifetime_refuted"
   ],
   "note": "False as stated: copying an allocated-but-empty vector gives a vector whose clear/destruction destroys elements that never existed. Proved for every program avoiding exactly that state and end() on a full pointer table."
  },
  {
   "property": "C16",
   "status": "proved",
   "theorems": [
    "C16_vector_at",
    "C16_deque_at"
   ],
   "note": "Both containers, every state reached by legal calls."
  },
  {
   "property": "C17",
   "status": "partial",
   "theorems": [
    "C17_vector_iterators_partial",
    "C17_vector_iterators_refuted",
    "C17_vector_negative_advance_refuted",
    "C17_deque_iterators_partial"
   ],
   "note": "False as stated: += with a negative distance is not normalised and += with a huge distance wraps the int offset. Proved for ++, --, += and -= with non-negative distances below 2^31-B."
  },
  {
   "property": "C18",
   "status": "partial",
   "theorems": [
    "C18_vector_begin_end_partial",
    "C18_vector_end_refuted",
    "C18_deque_begin_end_partial",
    "C18_deque_end_refuted"
   ],
   "note": "False as stated: end() reads one past the pointer table when the table is exactly full. Proved in every other state."
  },
  {
   "property": "C19",
   "status": "partial",
   "theorems": [
    "C19_vector_moved_from_refuted",
    "C19_vector_move_assigned_from_refuted",
    "C19_vector_moved_from_partial"
   ],
   "note": "False as stated: push_back/begin/end on a moved-from vector go through a null table, and the move assignment leaves the old size. Destruction, being assigned to and reuse after that are proved."
  },
  {
   "property": "C20",
   "status": "partial",
   "theorems": [
    "C20_deque_sequence_partial",
    "C20_deque_sequence_guarded_partial",
    "C20_deque_results",
    "C20_deque_defects_exact",
    "C20_deque_sequence_refuted"
   ],
   "note": "False as stated: iteration/assign over an exactly full table, clear() of non-trivial elements in one block whose front is not at the block start, push_front with N=0 on a default deque, and the overlapping table copy are undefined. Those states are characterised exactly (a legal call is undefined iff its guard fails); every legal history that does not reach one behaves as a list."
  },
  {
   "property": "C21",
   "status": "proved",
   "theorems": [
    "C21_deque_stable",
    "C21_deque_distinct",
    "C21_deque_contents"
   ],
   "note": "Every legal history that ran without undefined behaviour (see C20 for when that is)."
  },
  {
   "property": "C22",
   "status": "partial",
   "theorems": [
    "C22_deque_lifetime_partial",
    "C22_deque_clear_defect",
    "C22_deque_lifetime_refuted"
   ],
   "note": "False as stated: clear() (and so destruction) destroys dead slots when front and back block coincide and the front has moved. Proved for every program over any number of deques that avoids the guarded states; when all deques are destroyed no element, block or table remains."
  },
  {
   "property": "C23",
   "status": "partial",
   "theorems": [
    "C23_deque_sized_partial",
    "C23_deque_copy_partial",
    "C23_deque_empty_refuted"
   ],
   "note": "False for size 0 and for a copy of a default constructed deque (front and back index coincide, so the first element is not element 0). Proved for n>0 and for copies of deques that have held an element and whose table is not exactly full."
  },
  {
   "property": "C24",
   "status": "partial",
   "theorems": [
    "C24_deque_exponent_partial",
    "C24_deque_exponent_back_partial",
    "C24_deque_exponent_refuted"
   ],
   "note": "False for N=0 (push_front on a default deque writes slot -1 for every value). N=31 is ill-formed (narrowing initialiser). Proved for 1..30 at the front and 0..30 at the back."
  },
  {
   "property": "C25",
   "status": "partial",
   "theorems": [
    "C25_deque_front_growth_partial",
    "C25_deque_front_growth_refuted"
   ],
   "note": "False as stated: the relocation uses std::copy with the destination start inside the source range, which C++ does not define. Proved where std::copy is memmove, and without that assumption whenever the ranges do not overlap this way."
  },
  {
   "property": "C26",
   "status": "partial",
   "theorems": [
    "C26_insert_partial",
    "C26_insert_keyless",
    "C26_history",
    "C26_find_refuted"
   ],
   "note": "False as stated only for find() on stable storage with 2^31 elements or more: BlockIterator::operator+= narrows the distance to int (proved for any block size). All else, and find() at positions below 2^31 or with plain storage, is proved. Every state reached by legal calls, including states in which earlier removals left wrong terms (C28)."
  },
  {
   "property": "C27",
   "status": "partial",
   "theorems": [
    "C27_assign_partial",
    "C27_assign_in_range",
    "C27_assign_refuted"
   ],
   "note": "False as stated: a term left behind by a removal (C28) sends insert_or_assign outside the container. Proved whenever the key is absent or denotes a position of the container, which holds in every history meeting the guards of C28."
  },
  {
   "property": "C28",
   "status": "partial",
   "theorems": [
    "C28_remove_index_partial",
    "C28_remove_key_partial",
    "C28_remove_elements",
    "C28_no_alias_history",
    "C28_spec_removal",
    "C28_removal_refuted"
   ],
   "note": "False as stated for elements with several or no search terms. The exact condition is proved (removal is right iff the guard holds), the elements themselves are always right, and without aliases and without the default key every legal history of the unstable container is right."
  },
  {
   "property": "C29",
   "status": "partial",
   "theorems": [
    "C29_find_partial",
    "C29_dual_find",
    "C29_dual_history",
    "C29_find_refuted"
   ],
   "note": "False as stated for MappedVector/MappedPointerVector (stale terms, C28) and for an absent term with an exactly full table of stable storage (end(), C18). Proved in every reachable state of the three two-key classes and in every guarded history of the one-key classes."
  },
  {
   "property": "C30",
   "status": "partial",
   "theorems": [
    "C30_dual_insert_partial",
    "C30_dual_insert_exact",
    "C30_dual_insert_one",
    "C30_dual_insert_refuted"
   ],
   "note": "False as stated: insert refuses only if both keys are in use. With one key in use all three classes go ahead; DualMappedVector (either key) and DualStringMappedVector (second key) take the key from its element. Proved for none or both in use and for the one-key overloads."
  },
  {
   "property": "C31",
   "status": "partial",
   "theorems": [
    "C31_dual_insert_find_partial",
    "C31_dual_assign_find",
    "C31_dual_assign_one_find",
    "C31_dual_add_term",
    "C31_dual_find_refuted"
   ],
   "note": "False as stated only for insert with one key in use in the string and pointer classes (the key keeps denoting the old element). Everything else is proved in every reachable state."
  },
  {
   "property": "C32",
   "status": "partial",
   "theorems": [
    "C32_map_removal",
    "C32_removal_absent",
    "C32_string_removal_partial",
    "C32_string_removal_refuted"
   ],
   "note": "Proved in full for DualMappedVector. DualStringMappedVector iterates over a StableBlockVector of the keys, undefined when its table is exactly full (N=0: 64 terms of one element); otherwise right."
  },
  {
   "property": "C33",
   "status": "partial",
   "theorems": [
    "C33_pointer_removal_partial",
    "C33_pointer_removal_sound",
    "C33_pointer_removal_refuted"
   ],
   "note": "False as stated for elements without a key of one kind: the default key's entry is erased, and with scalar keys an indeterminate value is read. The exact condition is proved, and that nothing else goes wrong."
  },
  {
   "property": "C34",
   "status": "partial",
   "theorems": [
    "C34_stable_removal_partial",
    "C34_dual_stable_removal_partial",
    "C34_stable_removal_runs"
   ],
   "note": "Proved for every removal that runs; the only ones that do not are those of C28 (scalar key, element without a term) and C32 (full key table)."
  },
  {
   "property": "C36",
   "status": "partial",
   "theorems": [
    "C36_modify_partial",
    "C36_dual_modify_partial",
    "C36_modify_exact",
    "C36_modify_unstable",
    "C36_modify_refuted"
   ],
   "note": "False as stated exactly when the pointer table of stable storage is full (end(), C18). Proved in every other reachable state of all classes."
  },
  {
   "property": "C37",
   "status": "proved",
   "theorems": [
    "C37_mapFind_default",
    "C37_mapFind_optional",
    "C37_mapFind_defined"
   ],
   "note": ""
  },
  {
   "property": "C35",
   "status": "partial",
   "theorems": [
    "C35_own_text_partial",
    "C35_copies_share",
    "C35_copies_refuted",
    "C35_copy_assign_refuted"
   ],
   "note": "False as stated for copies: the implicit copy operations copy the string_view keys, which keep referring to the source's strings. Proved for every history without copies (moves, move assignments, destruction, all member calls), and for every copy that its terms are not its own."
  },
  {
   "property": "C38",
   "status": "proved",
   "theorems": [
    "C38_linearizable",
    "C38_herlihy_wing",
    "C38_content"
   ],
   "note": "Any number of threads, any schedule, also from states after moves. Linearizability is stated as: the history is one of a generic atomic object (Conc.v). Sequentially consistent memory and std::mutex assumed."
  },
  {
   "property": "C39",
   "status": "proved",
   "theorems": [
    "C39_no_deadlock",
    "C39_bounded"
   ],
   "note": "Some thread can always step; and every operation takes at most 17 own steps."
  },
  {
   "property": "C40",
   "status": "proved",
   "theorems": [
    "C40_lock_discipline",
    "C40_writes",
    "C40_reads"
   ],
   "note": "Accesses of the next step of each thread (sq_acc) never conflict; a step touches nothing that is not in that list (C40_writes, C40_reads); the crash point of pop is unreachable."
  },
  {
   "property": "C41",
   "status": "partial",
   "theorems": [
    "C41_empty_partial",
    "C41_empty_linearizable_partial",
    "C41_true_means_empty",
    "C41_empty_batch_refuted",
    "C41_moved_from_refuted"
   ],
   "note": "True without pushVector of an empty vector and for queues not moved from; refuted otherwise: pushVector({}) and moving away the elements leave empty() false with size() 0."
  },
  {
   "property": "C52",
   "status": "proved",
   "theorems": [
    "C52_linearizable",
    "C52_herlihy_wing",
    "C52_race_free",
    "C52_access"
   ],
   "note": "C52_access: steps outside the list used by C52_race_free do not touch the data. Any number of threads, any schedule, with spurious wakeups. Linearizability as in C38."
  },
  {
   "property": "C53",
   "status": "proved",
   "theorems": [
    "C53_not_forgotten",
    "C53_quiescent",
    "C53_no_deadlock"
   ],
   "note": "Condition variable modelled as a wait set; notify_one wakes some waiting thread of the scheduler's choice."
  },
  {
   "property": "C42",
   "status": "proved",
   "theorems": [
    "C42_linearizable",
    "C42_conserved",
    "C42_accounted"
   ],
   "note": "At every moment of every execution of any number of threads, from any state of rest (also after moves): Herlihy-Wing linearization whose final content is what the vectors hold; a permutation law, with what clear() threw away when it is used. The answers of try_peek/size/empty are left open in this specification (see C47). Proved by backward simulation."
  },
  {
   "property": "C43",
   "status": "proved",
   "theorems": [
    "C43_fifo",
    "C43_not_reversed"
   ],
   "note": "Real-time FIFO for distinct values; a is taken before b unless a clear() came between the two pushes, and never handed out after b, with or without clear()."
  },
  {
   "property": "C44",
   "status": "proved",
   "theorems": [
    "C44_none_means_empty"
   ],
   "note": "Both classes; a moment during the call at which all containers are physically empty."
  },
  {
   "property": "C45",
   "status": "proved",
   "theorems": [
    "C45_no_deadlock",
    "C45_lock_discipline",
    "C45_writes",
    "C45_reads"
   ],
   "note": "C45_writes, C45_reads: a step touches nothing that is not in the list used by C45_lock_discipline. Both classes; threads waiting on the condition excepted (see C46, C50)."
  },
  {
   "property": "C48",
   "status": "proved",
   "theorems": [
    "C48_linearizable",
    "C48_priority_first",
    "C48_C49_fifo",
    "C48_C49_not_reversed"
   ],
   "note": ""
  },
  {
   "property": "C49",
   "status": "proved",
   "theorems": [
    "C49_linearizable",
    "C49_conserved",
    "C49_accounted",
    "C48_C49_fifo",
    "C48_C49_not_reversed"
   ],
   "note": "As C42 and C43."
  },
  {
   "property": "C46",
   "status": "partial",
   "theorems": [
    "C46_no_lost_wakeup_partial",
    "C46_refuted"
   ],
   "note": "Proved for one blocking consumer (other threads may push, try_pop, clear, ...), any number of producers, any schedule. False with two blocking consumers: C46_refuted gives a schedule after which a consumer stays blocked for ever while an element is held, whatever is pushed later."
  },
  {
   "property": "C47",
   "status": "partial",
   "theorems": [
    "C47_exact_partial",
    "C47_empty_true_partial",
    "C47_refuted",
    "C47_refuted_callback"
   ],
   "note": "Proved for calls that do not overlap; in every execution from a new queue empty()=true is right. False in general: a history of two pushes and try_peek with no linearization (C47_refuted), and a single-threaded one with popOrCall (C47_refuted_callback)."
  },
  {
   "property": "C50",
   "status": "partial",
   "theorems": [
    "C50_no_lost_wakeup_partial",
    "C50_refuted"
   ],
   "note": "Proved for one popping thread. False in general: C50_refuted (a second thread takes a priority element with try_pop)."
  },
  {
   "property": "C51",
   "status": "partial",
   "theorems": [
    "C51_true_partial",
    "C51_exact_partial",
    "C51_refuted"
   ],
   "note": "empty()=true is right in every execution from a new queue; exact without priority elements and overlap. False in general: after pushPriority and try_pop, empty() answers false on an empty queue."
  },
  {
   "property": "C59",
   "status": "partial",
   "theorems": [
    "C59_callback_only_if_empty",
    "C59_callback_after_try_pop",
    "C59_no_wait_partial",
    "C59_refuted"
   ],
   "note": "Callback only after a try_pop that found nothing: proved. Returning what the callback pushed without waiting: proved when no other thread is inside an operation and nobody else pops; false otherwise (C59_refuted). The callback's own pushes are modelled as calls made while popOrCall stands at the callback."
  },
  {
   "property": "C54",
   "status": "proved",
   "theorems": [
    "C54_returns",
    "C54_high_first",
    "C54_oldest",
    "C54_add",
    "C54_add_vector"
   ],
   "note": "getWorkBlock run without other threads in between, from any reachable state at rest: returns null iff nothing is queued, a high block if there is one, and the oldest of its class; addWorkBlock appends to the class."
  },
  {
   "property": "C55",
   "status": "partial",
   "theorems": [
    "C55_between",
    "C55_first",
    "C55_no_starvation_partial",
    "C55_ratio_positive",
    "C55_refuted"
   ],
   "note": "Ratio law between two low blocks proved; no starvation proved while MedCounter is not negative. False without that: the counter overflows after 2^31 medium blocks and low work then starves for 2^31+4 more (C55_refuted; C++20 atomics wrap)."
  },
  {
   "property": "C56",
   "status": "proved",
   "theorems": [
    "C56_accounting",
    "C56_once",
    "C56_one_worker",
    "C56_discarded_by_close",
    "C56_no_workers"
   ],
   "note": "Any number of workers, user threads and blocks, any schedule."
  },
  {
   "property": "C57",
   "status": "partial",
   "theorems": [
    "C57_worker_bound",
    "C57_all_bound",
    "C57_progress_partial",
    "C57_shutdown_partial",
    "C57_refuted"
   ],
   "note": "Shutdown by one closing thread: bounded number of worker steps after halt, no deadlock, all workers left when close returns. False for two overlapping closeWorkerQueue calls: the second joins while holding queueLock (C57_refuted)."
  },
  {
   "property": "C58",
   "status": "partial",
   "theorems": [
    "C58_promises_partial",
    "C58_exists",
    "C58_future",
    "C58_once",
    "C58_execute",
    "C58_refuted",
    "C58_reset"
   ],
   "note": "Proved for blocks built from a function or a non-empty task, under all operations, except after updateTask with a used task and for moved-from blocks. False otherwise: default constructor always throws, etc. (C58_refuted)."
  },
  {
   "property": "C60",
   "status": "partial",
   "theorems": [
    "C60_vector_throw_partial",
    "C60_vector_throw_breaks",
    "C60_vector_throw_refuted"
   ],
   "note": "size, elements and addresses are kept; but bsize is already incremented, so from every state destroying, clearing or popping is undefined for non-trivial destructors, and after the next push the new index denotes an empty slot."
  },
  {
   "property": "C61",
   "status": "partial",
   "theorems": [
    "C61_deque_throw_partial",
    "C61_deque_throw_breaks",
    "C61_deque_throw_front_breaks",
    "C61_deque_throw_refuted"
   ],
   "note": "push_back: size, elements and addresses kept; destruction, clear and pop_back undefined from every state. push_front: every index is off by one and index 0 denotes an empty slot."
  },
  {
   "property": "C62",
   "status": "partial",
   "theorems": [
    "C62_vector_nomem_partial",
    "C62_deque_nomem_partial",
    "C62_deque_front_nomem_partial",
    "C62_nomem_refuted",
    "C62_front_nomem_refuted",
    "C62_vector_asks",
    "C62_deque_asks",
    "C62_deque_front_asks"
   ],
   "note": "Holds of every failing request but one: the block of the first push into a default constructed container leaves a table without block; the container can then not be destroyed. Covers push_back of both containers and push_front of the deque."
  },
  {
   "property": "C63",
   "status": "proved",
   "theorems": [
    "C63_fifo",
    "C63_before",
    "C63_served",
    "C63_one_call",
    "C63_high_first",
    "C63_nothing"
   ],
   "note": "The unlocked empty() of the low queue may answer true while an addWorkBlock or closeWorkerQueue is at work in it; the theorem says so."
  },
  {
   "property": "C64",
   "status": "proved",
   "theorems": [
    "C64_no_deadlock",
    "C64_bounded",
    "C64_drained"
   ],
   "note": "nw > 0; without workers addWorkBlock executes the block itself (C56_no_workers)."
  },
  {
   "property": "C65",
   "status": "partial",
   "theorems": [
    "C65_woken_partial",
    "C65_no_notify",
    "C65_refuted"
   ],
   "note": "False: addWorkBlock notifies without holding queueLock, so the notification can fall between the worker's emptiness checks and its wait; the block then stays until wait_for times out (5 s). With more than numWorkers blocks left like this further submissions do not notify at all. Proved: whenever some worker still has to look at the queues when the last call returns, everything is done without a timeout."
  },
  {
   "property": "C66",
   "status": "partial",
   "theorems": [
    "C66_is_empty_partial",
    "C66_num_block_partial",
    "C66_refuted",
    "C66_num_block_refuted"
   ],
   "note": "False: the three queues are looked at one after the other, and both can report an empty queue although there was a block all the time. Proved: true means that each single queue was empty (or had an add or close at work in it) at some moment of the call, and numBlock is the sum of the three sizes at three moments of the call."
  },
  {
   "property": "C67",
   "status": "partial",
   "theorems": [
    "C67_one_thread_partial",
    "C67_refuted"
   ],
   "note": "False for a block submitted twice: two workers run it at once (a data race on finished, and the second call of the packaged_task throws in the worker). Proved for every block submitted at most once."
  },
  {
   "property": "C68",
   "status": "proved",
   "theorems": [
    "C68_after_close"
   ],
   "note": "So work submitted after closeWorkerQueue is accepted and never done (C68_ex)."
  },
  {
   "property": "C69",
   "status": "partial",
   "theorems": [
    "C69_linearizable_partial",
    "C69_herlihy_wing_partial",
    "C69_synchronised_partial",
    "C69_refuted"
   ],
   "note": "False: after load has returned another thread's try_unload may still read the old flag and find nothing. Proved: loads and unloads that succeed are exactly those of an atomic slot, only failures of try_load and try_unload and the answer of isLoaded may be out of date; and if threads learn of all earlier writes before their calls, the history is that of an atomic slot without exception."
  },
  {
   "property": "C70",
   "status": "proved",
   "theorems": [
    "C70_newest",
    "C70_race_free",
    "C70_not_forgotten",
    "C70_quiescent",
    "C70_no_deadlock"
   ],
   "note": ""
  },
  {
   "property": "C71",
   "status": "proved",
   "theorems": [
    "C71_linearizable",
    "C71_conserved",
    "C71_accounted",
    "C71_threw_nothing",
    "C71_fifo",
    "C71_no_deadlock",
    "C71_lock_discipline",
    "C71_may_throw"
   ],
   "note": "push_back, emplace_back, reserve and queue::push are taken to have the strong guarantee, as the standard says for elements that can be copied or moved without exceptions."
  },
  {
   "property": "C72",
   "status": "partial",
   "theorems": [
    "C72_no_lost_wakeup_partial",
    "C72_refuted",
    "C72_refuted_priority"
   ],
   "note": "False: a push that throws after it has set queueEmptyFlag to false leaves the flag false without notifying; the next pushes do not notify either, so the consumer sleeps although elements are there. Proved for pushes that throw only where the flag was already false."
  },
  {
   "property": "C73",
   "status": "partial",
   "theorems": [
    "C73_true_partial",
    "C73_empty_true_partial",
    "C73_refuted"
   ],
   "note": "False: after the first push on a new queue has thrown, empty() answers false. Proved: if it answers true, nothing is held."
  },
  {
   "property": "C74",
   "status": "partial",
   "theorems": [
    "C74_stack_raw",
    "C74_stack_partial",
    "C74_refuted"
   ],
   "note": "False: resize of a non-empty stack to nearly INT_MAX sets the write position to the new size, and the next resize to a smaller size adds the size of the index to it. Proved for StackBufferRaw, and for StackBuffer unless that happens."
  },
  {
   "property": "C75",
   "status": "proved",
   "theorems": [
    "C75_circ_ints",
    "C75_circ_raw_ints",
    "C75_circ_offsets"
   ],
   "note": ""
  },
  {
   "property": "C76",
   "status": "proved",
   "theorems": [
    "C76_vector_memory",
    "C76_vector_shrink",
    "C76_vector_counters"
   ],
   "note": "Traversal by iterators, which changes no memory, is left out of the sequences as in C13."
  },
  {
   "property": "C77",
   "status": "partial",
   "theorems": [
    "C77_deque_memory_partial",
    "C77_deque_shrink_partial",
    "C77_deque_counters_partial"
   ],
   "note": "For every run that does not meet one of the defects of C20 (where the behaviour is undefined)."
  },
  {
   "property": "C78",
   "status": "partial",
   "theorems": [
    "C78_insert_throw_partial",
    "C78_left_behind",
    "C78_reached",
    "C78_lookup_reached",
    "C78_stable_broken",
    "C78_insert_throw_refuted"
   ],
   "note": "False as stated: an exception from lookup.emplace leaves the element without its key, and stable storage is broken by a throwing element constructor. Proved: in all other cases the container goes on as if nothing had happened or as if the element had been inserted without a key."
  },
  {
   "property": "C79",
   "status": "partial",
   "theorems": [
    "C79_dual_throw_partial",
    "C79_left_behind",
    "C79_reached",
    "C79_lookup_reached",
    "C79_stable_broken",
    "C79_dual_throw_refuted"
   ],
   "note": "False as stated, as C78; the element may also keep its first key only, or insert_or_assign may have changed the value without adding the second key."
  },
  {
   "property": "C80",
   "status": "partial",
   "theorems": [
    "C80_removal_throw_partial",
    "C80_dual_removal_throw_partial",
    "C80_removal_throw",
    "C80_dual_removal_throw",
    "C80_pointer_removal_throw",
    "C80_removal_throw_refuted"
   ],
   "note": "False as stated: the element is erased before the keys are copied. Proved: exactly what is left behind; nothing changes when the storage keeps the element."
  },
  {
   "property": "C81",
   "status": "partial",
   "theorems": [
    "C81_text_throw_partial",
    "C81_text_throw",
    "C81_text_throw_refuted"
   ],
   "note": "False as stated: a string that cannot be built leaves a slot without a string, and the destructor is undefined behaviour. Proved: every other exception (except the first block of names) leaves a container that goes on working."
  },
  {
   "property": "C82",
   "status": "partial",
   "theorems": [
    "C82_vector_iterator_reads",
    "C82_vector_iterator_moves_partial",
    "C82_vector_iterator_lost",
    "C82_vector_iterator_moves_refuted"
   ],
   "note": "False as stated: once the vector has had more elements than the table of blocks has room for, a move out of the block reads the deleted table. Proved: reading and moving inside the block always work; everything works while the table has room; the exact condition."
  },
  {
   "property": "C83",
   "status": "partial",
   "theorems": [
    "C83_deque_iterator_reads",
    "C83_deque_iterator_moves_partial",
    "C83_deque_iterator_shifted",
    "C83_deque_iterator_lost",
    "C83_deque_iterator_moves_refuted"
   ],
   "note": "False as stated: a push that shifts the table makes the iterator move to a wrong element; one that replaces it makes the move undefined. Proved: reading and moving inside the block always work; everything works while pushes find room; where a move goes after a shift."
  },
  {
   "property": "C84",
   "status": "partial",
   "theorems": [
    "C84_throw_partial",
    "C84_content_partial",
    "C84_empty_partial",
    "C84_swap_throw",
    "C84_swap_content",
    "C84_refuted",
    "C84_may_throw"
   ],
   "note": "False as stated: a pop whose std::reverse is left by a throwing swap loses its element and leaves the others in another order. Proved: with every other exception the history is linearizable and throwing calls do nothing; with throwing swaps the only damage is the one named."
  },
  {
   "property": "C85",
   "status": "proved",
   "theorems": [
    "C85_no_deadlock",
    "C85_bounded",
    "C85_lock_discipline",
    "C85_locks_released"
   ],
   "note": "Locking itself does not throw; vector insertion at the end and reserve have the strong guarantee."
  },
  {
   "property": "C86",
   "status": "partial",
   "theorems": [
    "C86_moved_from_partial",
    "C86_moved_from_exact",
    "C86_moved_from_history_partial",
    "C86_moved_from_plain_partial",
    "C86_moved_from_refuted"
   ],
   "note": "False as stated: bsize and freeIndex keep their values, so push_back and end() go through a null pointer unless the last block was full, and push_front and shrink_to_fit do if there were spare blocks. Proved: the calls that always work, the exact conditions for the others, and whole histories under those conditions."
  },
  {
   "property": "C87",
   "status": "partial",
   "theorems": [
    "C87_moved_partial",
    "C87_moved_to_partial",
    "C87_moved_from_partial",
    "C87_no_lost_wakeup_partial",
    "C87_moved_empty_partial",
    "C87_moved_empty_refuted"
   ],
   "note": "Contents and use by any number of threads proved for every state at rest; empty() is wrong for the destination when only pushElements holds something, and for the source. Self-move not modelled."
  },
  {
   "property": "C88",
   "status": "partial",
   "theorems": [
    "C88_pop_back_partial",
    "C88_pop_refuted",
    "C88_pop_case_refuted"
   ],
   "note": "False as stated: the counters are changed before the request is made, and only partly. Proved: when the request is made; size(), indexed reads and front() after a failed pop_back. Refuted from every reachable state: a later push, back(), and every index after a failed pop_front. StableBlockVector::pop_back has the same order of steps but is noexcept for ordinary element types (the program is terminated); it is not modelled here."
  },
  {
   "property": "C89",
   "status": "partial",
   "theorems": [
    "C89_circ_self_copy_partial",
    "C89_circ_self_copy_refuted",
    "C89_stack_self_copy_partial",
    "C89_stack_self_copy_refuted",
    "C89_stack_self_move_refuted",
    "C89_vector_self_copy_partial",
    "C89_deque_self_copy_partial",
    "C89_vector_self_move_refuted",
    "C89_deque_self_move_partial"
   ],
   "note": "False as stated. Proved: with memcpy onto itself taken to do nothing, x = x of the buffers changes nothing for any program; x = x of the block containers is the identity exactly when the table is not full (else undefined, C18). Refuted: strictly the memcpy is undefined for every buffer with a size; after x = std::move(x) a vector reports its old size and every access is undefined, a StackBuffer accepts a resize without having memory; the deque becomes the moved-from deque of C86."
  },
  {
   "property": "C90",
   "status": "partial",
   "theorems": [
    "C90_wait_partial",
    "C90_race_refuted",
    "C90_finished_refuted",
    "C90_reuse_refuted"
   ],
   "note": "False as stated: finished is a plain bool that execute() writes after the future has become ready. isFinished() races with execute(); it may be false after wait() has returned; reset() after wait() may be undone by the late write, and then the work handed in again is never run and the second wait() blocks for ever, however the execution goes on. Proved: with one executing thread and any number of others that only use wait(), getReturnVal(), get_future() and futures, every schedule is race free and linearizable."
  },
  {
   "property": "C91",
   "status": "proved",
   "theorems": [
    "C91_linearizable",
    "C91_race_free",
    "C91_once",
    "C91_progress",
    "C91_writes",
    "C91_reads",
    "C91_runs"
   ],
   "note": "C91_writes, C91_reads: a step touches nothing that is not in the list used by C91_race_free. For all calm schedules: a call is made only when no incompatible call is in progress. Sequentially consistent memory (there is no data race), works end, std::packaged_task and shared_future as specified."
  },
  {
   "property": "C92",
   "status": "proved",
   "theorems": [
    "C92_closed_before",
    "C92_destructor"
   ],
   "note": "Any number of workers. The destructor is closeWorkerQueue unless halt is set; works end and do not use the queue meanwhile. Until halt is set the destructor only waits for a worker that gives back queueLock within two steps; after that boundedly many steps are left and no deadlock is possible. Overlapping calls of closeWorkerQueue can deadlock (C57_refuted)."
  },
  {
   "property": "C93",
   "status": "partial",
   "theorems": [
    "C93_circ_empty_partial",
    "C93_circ_new",
    "C93_circ_stuck",
    "C93_circ_empty_refuted"
   ],
   "note": "False as stated: pop does not reset the positions of a buffer that became empty, so a block larger than both free parts is refused, for ever if nothing else is pushed (C93_circ_stuck). After any calls: push is defined, its answer is given exactly, and blocks of up to half the capacity (header included) are always accepted."
  },
  {
   "property": "C94",
   "status": "proved",
   "theorems": [
    "C94_bounded",
    "C94_call",
    "C94_pop",
    "C94_timeout",
    "C94_settles"
   ],
   "note": "Own steps include taking the locks (a thread that finds a lock taken makes no step; C45 shows that somebody can). C94_settles: at most B ordinary steps from any reachable state, for any number n of threads."
  },
  {
   "property": "C95",
   "status": "partial",
   "theorems": [
    "C95_same_partial",
    "C95_calm",
    "C95_once",
    "C95_open",
    "C95_rest",
    "C95_closing_partial",
    "C95_bounded_closing",
    "C95_bounded_open",
    "C95_self_close",
    "C95_last_worker",
    "C95_refuted"
   ],
   "note": "False for closeWorkerQueue: called by a worker's work it never returns, because the worker is to join itself (an exception in practice), and if only work closes the queue its destruction ends the program (C95_last_worker, C95_refuted). Otherwise true. Not covered: executions in which that exception is thrown while queueLock is held (only C95_self_close and C95_last_worker include them), and overlapping closes (C57)."
  },
  {
   "property": "C96",
   "status": "partial",
   "theorems": [
    "C96_same",
    "C96_user",
    "C96_once",
    "C96_dropped",
    "C96_open",
    "C96_rest",
    "C96_closing_partial",
    "C96_ends_closing",
    "C96_ends_open",
    "C96_close_threw",
    "C96_retry",
    "C96_constructor",
    "C96_refuted",
    "C96_retry_refuted"
   ],
   "note": "True for addWorkBlock. False for closeWorkerQueue: it has set halt before it allocates, so after the exception the destructor does not close the queue and ends the program (C96_close_threw, C96_refuted), and calling it again gets stuck while a worker is in its loop (C96_retry, C96_retry_refuted). False for the constructor: threads already started are not joined, the unwinding ends the program (C96_constructor)."
  },
  {
   "property": "C97",
   "status": "partial",
   "theorems": [
    "C97_linearizable",
    "C97_race_free",
    "C97_unlocked",
    "C97_no_deadlock",
    "C97_not_forgotten_partial",
    "C97_quiescent_partial",
    "C97_stuck",
    "C97_refuted",
    "C97_lost_refuted"
   ],
   "note": "False when the assignment of line 70 throws: this loader has used up the notification and leaves the slot free, so another loader keeps waiting although the slot is free, for as long as nobody loads it (C97_refuted, C97_stuck); true otherwise (parameter late = false). False also when a move that throws has changed its source, or when the move of the result throws (parameter lossy = true): the element is lost (C97_lost_refuted)."
  },
  {
   "property": "C98",
   "status": "proved",
   "theorems": [
    "C98_bounded",
    "C98_call",
    "C98_settles",
    "C98_drain"
   ],
   "note": "Steps include taking the lock (a thread that finds it taken makes no step; C97_no_deadlock shows that somebody can). That the waiters wait for a full slot, and C98_drain, need load not to throw after waiting (C97_refuted)."
  },
  {
   "property": "C99",
   "status": "partial",
   "theorems": [
    "C99_vector_part",
    "C99_vector_assign_partial",
    "C99_vector_push",
    "C99_vector_assign_refuted",
    "C99_deque_part",
    "C99_deque_assign_partial",
    "C99_deque_push",
    "C99_deque_assign_refuted",
    "C99_sized_refuted",
    "C99_copy_refuted",
    "C99_deque_sized_refuted",
    "C99_deque_copy_part",
    "C99_deque_copy_refuted"
   ],
   "note": "Holds when assigning to an existing element throws (C99_vector_assign_partial, C99_deque_assign_partial). False when the construction of an added element throws: the container can no longer be destroyed (C99_vector_push, C99_deque_push, the refuted forms). False of the constructors: the table, the blocks and the elements made so far are leaked (C99_sized_refuted, C99_copy_refuted for StableBlockVector; C99_deque_sized_refuted, C99_deque_copy_refuted for StableBlockDeque)."
  },
  {
   "property": "C100",
   "status": "partial",
   "theorems": [
    "C100_raw_partial",
    "C100_stack_partial",
    "C100_sizes_partial",
    "C100_push_record",
    "C100_refuted"
   ],
   "note": "Exact: an access is aligned if and only if the capacity (plus the address of the memory given to StackBufferRaw) is divisible by 4. C100_refuted: StackBuffer(21). C100_push_record ties the listed offset to the record written."
  },
  {
   "property": "C101",
   "status": "partial",
   "theorems": [
    "C101_new_partial",
    "C101_raw_partial",
    "C101_stack_partial",
    "C101_raw_refuted",
    "C101_refuted"
   ],
   "note": "Exact: the pointers stay inside if and only if 8 bytes are left for the next index record (a push that is accepted, clear, construction, copies, resize); pop, reverse and nextDataSize never leave the memory. C101_raw_refuted, C101_refuted: a full stack, capacities below 8, clear of a default constructed buffer."
  },
  {
   "property": "C102",
   "status": "proved",
   "theorems": [
    "C102_raw",
    "C102_circ"
   ],
   "note": "No condition on the program beyond what was accessed so far; object names are fresh in constructors."
  },
  {
   "property": "C103",
   "status": "proved",
   "theorems": [
    "C103_simple",
    "C103_blocking",
    "C103_airlock"
   ],
   "note": "The steps that forward the argument are listed with their lines (sq_uses, bq_uses, air_uses); the runs are the runs of the models with a counter beside each program point. pushVector copies its argument; it is counted the same way. Calls left by an exception are not covered."
  },
  {
   "property": "C104",
   "status": "partial",
   "theorems": [
    "C104_circ_partial",
    "C104_circ_no_failure",
    "C104_circ_when",
    "C104_circ_shared_refuted",
    "C104_circ_refuted",
    "C104_circ_recover",
    "C104_stack_partial",
    "C104_stack_no_failure",
    "C104_stack_when",
    "C104_stack_shared_refuted",
    "C104_stack_refuted",
    "C104_stack_recover"
   ],
   "note": "Holds for constructors, copies and resize. False of copy assignment: the positions are copied before the memory is asked for, so the destination is left pointing into the memory of the source (C104_circ_shared_refuted and C104_stack_shared_refuted for every source that does not fit; C104_circ_refuted and C104_stack_refuted: it pops the elements of the source and outlives its memory). Destroying the destination or assigning to it again repairs it (the recover theorems)."
  },
  {
   "property": "C105",
   "status": "partial",
   "theorems": [
    "C105_shrink",
    "C105_vector_moves",
    "C105_deque_moves",
    "C105_circ_moves",
    "C105_stack_moves",
    "C105_vec_push_partial",
    "C105_vec_pop_partial",
    "C105_vec_clear_partial",
    "C105_deq_clear_partial",
    "C105_sized_refuted",
    "C105_first_push_refuted",
    "C105_refuted"
   ],
   "note": "Holds for shrink_to_fit, the moves, swap and destructors. False of the sized constructor (always), push_back, pop_back and clear of StableBlockVector and clear of StableBlockDeque; the partial theorems say exactly when these ask for memory."
  },
  {
   "property": "C106",
   "status": "partial",
   "theorems": [
    "C106_value",
    "C106_value_good",
    "C106_void_partial",
    "C106_void_refuted",
    "C106_refuted"
   ],
   "note": "Holds for WorkBlock<T>. False of WorkBlock<void>: its getReturnVal waits instead of asking for the result, so exceptions of the work and broken promises are not reported."
  },
  {
   "property": "C107",
   "status": "proved",
   "theorems": [
    "C107_vector",
    "C107_deque",
    "C107_bool"
   ],
   "note": "The condition of C18 (end() inside the table) is a hypothesis."
  },
  {
   "property": "C108",
   "status": "proved",
   "theorems": [
    "C108_vector_push_own",
    "C108_vector_assign_own",
    "C108_deque_push_own",
    "C108_deque_assign_own"
   ],
   "note": "move_assign of a range starting at the first element, which moves elements to themselves, is left out of the statement. For the deque the hypothesis is that the call with a value is defined."
  },
  {
   "property": "C109",
   "status": "partial",
   "theorems": [
    "C109_vector",
    "C109_deque_back_partial",
    "C109_deque_front_partial",
    "C109_deque_count",
    "C109_deque_refuted",
    "C109_deque_push_partial",
    "C109_deque_push_refuted"
   ],
   "note": "Holds for StableBlockVector (all calls) and for a StableBlockDeque used only at one end. False of a StableBlockDeque used as a queue: for every K and every block size there is a history of push_back and pop_front whose average exceeds K. Pushes at both ends and no pops: the average is at most logarithmic, and it is not bounded. Copies of the table of spare blocks are not counted."
  },
  {
   "property": "C110",
   "status": "proved",
   "theorems": [
    "C110_simple",
    "C110_simple_new",
    "C110_simple_pop",
    "C110_blocking",
    "C110_blocking_new",
    "C110_blocking_pop"
   ],
   "note": "Element copies made by the growth of the vectors themselves are not counted."
  },
  {
   "property": "C111",
   "status": "proved",
   "theorems": [
    "C111_count",
    "C111_open",
    "C111_closed",
    "C111_stays"
   ],
   "note": ""
  },
  {
   "property": "C112",
   "status": "partial",
   "theorems": [
    "C112_circ_partial",
    "C112_circ_exact",
    "C112_circ_refuted",
    "C112_circ_copy_refuted",
    "C112_stack_partial",
    "C112_stack_exact",
    "C112_stack_refuted"
   ],
   "note": "Holds of arrays that are not of length 0, and of all arrays in programs that leave none of length 0 to a buffer. False of arrays of length 0: CircularBuffer(0) never gives its array back, nor does the copy of a buffer resized to 0; StackBuffer(0) loses it when it is resized."
  },
  {
   "property": "C113",
   "status": "proved",
   "theorems": [
    "C113_modify",
    "C113_continues",
    "C113_dual_modify",
    "C113_dual_continues",
    "C113_apply",
    "C113_same"
   ],
   "note": ""
  },
  {
   "property": "C114",
   "status": "proved",
   "theorems": [
    "C114_same",
    "C114_stops",
    "C114_progress",
    "C114_runs"
   ],
   "note": ""
  },
  {
   "property": "C115",
   "status": "partial",
   "theorems": [
    "C115_single_partial",
    "C115_dual_partial",
    "C115_own_value",
    "C115_unstable_guard",
    "C115_moved_from_refuted",
    "C115_copy_to_moved_refuted",
    "C115_copy_emptied_refuted",
    "C115_copy_full_refuted"
   ],
   "note": "False as stated with stable storage: a moved-from container cannot be used again or copied to (undefined), a copy of a container that was emptied cannot be destroyed, and a container with an exactly full table cannot be copied. Proved for all programs that avoid these; with std::vector storage nothing needs to be avoided."
  },
  {
   "property": "C116",
   "status": "partial",
   "theorems": [
    "C116_vectors",
    "C116_race_free_partial",
    "C116_writes",
    "C116_reads",
    "C116_threads_refuted",
    "C116_blocks_refuted"
   ],
   "note": "The queues are race free in every execution; the thread objects if no two closeWorkerQueue calls overlap; the finished flag of a block if it is submitted at most once. False otherwise: two overlapping closeWorkerQueue calls join the same std::thread (C116_threads_refuted), and addWorkBlock reads finished while a worker writes it when a block is submitted again (C116_blocks_refuted). C116_writes, C116_reads: the access lists are what the steps do. isFinished() and reset() called by users themselves: C90, C91."
  },
  {
   "property": "C117",
   "status": "proved",
   "theorems": [
    "C117_owned_single",
    "C117_step_single",
    "C117_call_single",
    "C117_defined_single",
    "C117_end_single",
    "C117_owned_dual",
    "C117_step_dual",
    "C117_call_dual",
    "C117_defined_dual",
    "C117_end_dual"
   ],
   "note": "Without exceptions (C78-C81) and self move assignment. Programs use the containers also in states in which the lookup maps are out of step with the elements (C28, C33): ownership does not depend on them."
  },
  {
   "property": "C118",
   "status": "partial",
   "theorems": [
    "C118_sq_linearizable",
    "C118_sq_runs",
    "C118_sq_partial",
    "C118_sq_stuck",
    "C118_sq_refuted",
    "C118_bq_linearizable",
    "C118_bq_runs",
    "C118_bq_partial",
    "C118_bq_stuck",
    "C118_bq_refuted"
   ],
   "note": "False of the code: clear() destroys the elements while it holds both mutexes, so a destructor that calls anything but empty() waits for ever, and so does everybody who calls anything but empty() later. Holds if destructors call nothing but empty(); callbacks of popOrCall may call everything. Destructors of moved-from elements and constructors of elements are not covered."
  },
  {
   "property": "C119",
   "status": "partial",
   "theorems": [
    "C119_runs",
    "C119_same",
    "C119_once",
    "C119_closing_partial",
    "C119_stuck",
    "C119_which",
    "C119_add",
    "C119_refuted"
   ],
   "note": "False of the code: a queue is cleared with both its mutexes held, so a destructor that adds work to the same level (or calls numBlock, or getWorkBlock for the first queue) waits for ever and closeWorkerQueue never returns. Holds if the destructors call nothing but isEmpty, getWorkerCount and setPriorityRatio and closeWorkerQueue calls do not overlap. Calls to other levels and nested closeWorkerQueue calls are covered by C119_same and C119_once only."
  },
  {
   "property": "C120",
   "status": "partial",
   "theorems": [
    "C120_partial",
    "C120_dual_partial",
    "C120_vector",
    "C120_same",
    "C120_refuted"
   ],
   "note": "False of the code if the function changes the number of elements of a std::vector, outgrows the block table of a StableBlockVector, or removes elements. Holds when the function's own calls leave the storage steady: same number of elements (std::vector), or no fewer elements and the same table (StableBlockVector). The capacity of a std::vector is not modelled: an insertion is taken to invalidate iterators."
  },
  {
   "property": "C121",
   "status": "partial",
   "theorems": [
    "C121_safe",
    "C121_alone",
    "C121_atomic_partial",
    "C121_bag",
    "C121_no_lost_wakeup_partial",
    "C121_asleep",
    "C121_refuted",
    "C121_order_refuted"
   ],
   "note": "No crash and no deadlock for all assignments. Atomic replacement holds if the sources have nothing in pushElements; otherwise a push under way can put its element in front (C121_order_refuted), and only the order of the normal elements is affected (C121_bag). Nobody is notified: a consumer waiting while something is assigned stays asleep, and later pushes do not wake it (C121_asleep, C121_refuted); no lost wakeup with one blocking consumer if it is not inside a call at the assignment or the source is empty. The assignment is one step; self-move: C124. A source in use is not modelled."
  },
  {
   "property": "C122",
   "status": "proved",
   "theorems": [
    "C122_atomic",
    "C122_safe",
    "C122_alone"
   ],
   "note": "The assignment is one step, possible when both locks are free. Self-move: C124. A source in use is not modelled."
  },
  {
   "property": "C123",
   "status": "partial",
   "theorems": [
    "C123_partial",
    "C123_terminates",
    "C123_ends",
    "C123_refuted"
   ],
   "note": "False of the code when a thread other than the first cannot be started: the exception destroys running std::thread objects, which calls std::terminate (C123_terminates, C123_refuted). Holds in all other cases (C123_partial); C123_ends: there is no other way to std::terminate."
  },
  {
   "property": "C124",
   "status": "partial",
   "theorems": [
    "C124_simple_partial",
    "C124_simple_safe",
    "C124_simple_refuted",
    "C124_blocking_partial",
    "C124_blocking_safe",
    "C124_blocking_refuted"
   ],
   "note": "There is no test for self-assignment, so what is left is what the library leaves in a vector moved onto itself, which is unspecified. If it keeps the elements nothing is lost; if it empties the vector (as libstdc++ does) everything is lost (the refutations). No deadlock or crash in either case; the queue behaves atomically throughout. That the vectors are kept or emptied, and all in the same way, is an assumption of the model. Wakeups are not covered."
  }
 ]
}