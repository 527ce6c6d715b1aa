# Formal model of YY.Base in Rocq (Coq 8.16.1)

## Layout

* `properties.jsonl` - the semantic properties (C01, C02, ...).
* `rocq/theories/<Topic>Model.v` - executable model of the code of one topic. Every
  definition cites file and lines in `/repo` and says where it simplifies.
* `rocq/theories/<Topic>Proofs.v` - lemmas.
* `rocq/theories/<Topic>Thms.v` - specification-level definitions needed to read the
  statements, the property theorems (each closed by `exact`), `Print Assumptions`
  beneath each, and `Example`s showing that the hypotheses are met by concrete,
  non-trivial cases.
* `MANIFEST.json` - property -> theorems.
* `seeded/LOG.jsonl` - mutation attempts (wrong programs) and which theorems caught them.

Conventions: a theorem whose name ends in `_refuted` proves that the property text is
*false* for the modelled code, with a concrete witness; a name ending in `_partial` proves
only part of the property. Undefined behaviour, use after free, out-of-bounds access
and the like are separate outcomes of the model, never silently totalised.

## Platform

The primary target of the code is Windows/MSVC on AMD64 (several functions are `#error`
elsewhere). Unless a comment says otherwise the Windows AMD64 branch is modelled;
`size_t` is 64 bit, `wchar_t`/`uchar_t` is 16 bit, little endian.

## Plan per property

| id | model | method |
|----|-------|--------|
| C01, C02, C07, C08 | heap of reference counted blocks + any number of Array variables (`iRef` > 0 count, < 0 lock count) | representation invariant (count = number of holders), refinement to a map variable -> list by induction over histories; `_refuted` for C08 |
| C03 | small-step machine: threads, shared blocks, atomic load/inc/dec | inductive invariant over all schedules |
| C04, C05 | small/large union state machine with capacity | refinement to lists |
| C06 | buffer as list of cells, two copy loops with directions | theorem for memmove, `_refuted` for the element-wise loop |
| C09, C10 | heap of nodes with next/prior fields | representation predicate, refinement to lists |
| C11 | array of 64-bit words + counter | refinement to a set of indices |
| C12 | 128 buckets of chains | refinement to a set |
| C13 | slots with construct/destroy trace | balance invariant |
| C14-C20 | functions on lists with 64-bit wrapping index arithmetic | specification by first/last occurrence; `_refuted` for C16, C19 |
| C21-C23 | string heap machine like C01 with capacity and terminator | refinement / invariants; `_refuted` for clone and TrimEnd |
| C24, C25 | comparison loops over counted buffers | order laws; `_refuted` for the generic counted compare |
| C26-C30 | transcoder loops on code units | independent encoder/decoder specification of UTF-8/16/32; `_refuted` where the code deviates |
| C31-C34 | N/Z arithmetic mod 2^64 | exact arithmetic theorems, `_refuted` for C32, C33 |
| C35-C37 | Z arithmetic mod 2^64 | round trips, order; `_refuted` parts |
| C38, C39, C68 | 64-bit words | exact theorems |
| C40 | small-step machine with any number of threads | inductive invariant |
| C41-C44 | variables + objects with counts | invariant over histories; `_refuted` for C42 |
| C45 | owner/recursion counter state machine, any number of threads | `_refuted` (lock never released), theorem for what holds |
| C46, C47 | small-step machine over heap cells | inductive invariant / `_refuted` |
| C48 | words + CAS loops | pointwise bit theorems, atomicity for all schedules |
| C49-C53 | small-step machines with handler lists | inductive invariants; `_refuted` for C51, C53 leak |
| C54-C57 | full model of the four level timer wheel on lists and Z | invariants over histories; `_refuted` for C56, C57 |
| C58 | slot table | `_refuted` and theorem for distinct handles |
| C59-C61 | small-step machines of the runner flags + queue + workers | inductive invariants; `_refuted` for C60 |
| C62, C63 | small-step machine of one task entry | inductive invariant / `_refuted` |
| C64-C67 | functions on lists of code units | prefix/suffix theorems; `_refuted` for C66, C67 |

Each property in the list can be expressed; none is declared not applicable.

## Trusted base

* The kernel of Coq 8.16.1, including the conversion used by `vm_compute` (which `coqchk`
  replays).
* Axioms: none of our own. Every property theorem prints `Closed under the global context`.
  The only axioms `coqchk` lists for the loaded libraries are
  the seven of the standard library's module `Coq.ssr.ssrunder.Under_rel` (`Under_rel`,
  `Under_rel_from_rel`, `Under_relE`, `Over_rel`, `over_rel`, `over_rel_done`,
  `under_rel_done`), loaded with ssreflect; no theorem uses them.
* The model: that the definitions in the `*Model.v` files describe the C++ text they cite.
  They were written by reading the source; nothing was compiled or run. The assumptions made
  beyond the text are listed per topic below and in the header of each model file.
* The reading of the properties: the small specification definitions at the head of each
  `*Thms.v` file.

## What is modelled

| topic (files `rocq/theories/<topic>*.v`) | code | simplifications and assumptions |
|---|---|---|
| Math, BitsCount | `Utils/MathUtils.h`; bit counters of `ParallelTaskRunnerImpl.hpp` | 64-bit operations wrap explicitly; division by zero is an outcome |
| Value, Tick | `Utils/Version.h`, `SafeCast.h`, `Time/TimeSpan.h`, `TickCount.h`, `DataTime.h/.cpp` | the system's time zone functions are an arbitrary pair of inverse functions |
| Span | `Containers/Span.h`, the members of `Strings/StringView.h` with the same text | a view is a block, a position and a length; reading outside the block is an outcome |
| Compare | `tchar.h` comparison loops, `StringView` comparison | characters are integers; `char32_t` difference wraps to 32 bit |
| BitMap | `Containers/BitMap.h`, bit functions of `Sync/Interlocked.h` | single threaded |
| List, HashSet, Optional | `DoublyLinkedList.h`, `SingleLinkedList.h`, `Delegate.h`, `HashSet.h`, `Optional.h` | entries are names, memory is a function from names to links; `assert` does nothing |
| Move | `ConstructorPolicy.h` and the overlapping moves of `Array::Insert`, `Array::Remove` | elements are values; construction is not distinguished from assignment |
| Cow, CowAlias, Alloc | `Array.h`, copy-on-write policy and the members built on it; block size arithmetic; `Memory/Alloc.h` zeroing functions | allocation may fail at will; sequential use; counts unbounded (the wrap of byte counts is in Alloc) |
| Timer | `Threading/ThreadTaskRunnerTimerManger.h`, all members | times below 2^63 ms; buckets are lists; dispatching happens after the members are up to date |
| Utf | `Strings/StringTransform.cpp`: all transcoding loops between UTF-8, UTF-16 LE/BE, UTF-32 LE/BE and `TransformEndian(const&)` | a destination is its text and the capacity of the locked buffer; LockBuffer is an oracle that may fail; sizes do not wrap; the code page functions (ANSI) are not modelled |
| Path | `IO/Path.cpp`/`Path.h`: separators, TryParseUncPath, TryParseVolumePath, IsSameVolume, GetPathRoot, IsPathRooted, RemoveFileSpec, GetFileName, GetExtension, GetFileNameWithoutExtension, GetDirectoryPath, IsPathFullyQualified, Append, GetFullPath | paths are lists of characters; both platforms by a flag; memory suffices and sizes do not wrap; the current directory is an argument; the uString overloads are their view versions; the effect of a shared base on Append is that of CloneStringData |
| CriticalSection | `Sync/CriticalSection.h`, `.cpp`: Lock, TryLock, Unlock | sequentially consistent memory, every access to the three fields one step; the operating system lock is a flag |
| RefPtr, UniquePtr, Handle, ObserverPtr | `Memory/RefPtr.h` (RefPtr), `Memory/UniquePtr.h`, `Utils/Handle.h`, `Memory/ObserverPtr.h`: all constructors, destructors, assignments, Attach, Detach, Reset, Get | variables are slots of a list, objects are numbered; memory suffices; counters do not overflow; object destructors do not touch the pointers; DuplicateHandle is an oracle that yields an unused handle or fails; comparison operators are not modelled |
| RefCount | `Memory/RefPtr.h` RefValue, `Memory/WeakPtr.h` Get and the counters under concurrency | one object, one atomic access per step, sequential consistency, counters do not overflow, the destructor takes no references to its own object |
| Copy-on-write strings | `Strings/String.h`: StringBase constructors, destructor, assignment, SetString, Clear, SetItem, AppendString, LockBuffer, UnlockBuffer, Remove, Slice, Substring, TrimStart, TrimEnd, Trim, SetANSIEncoding, StringData with its allocation; `StringTransform.cpp` 69-115 | characters are numbers; sizes unbounded in the object model (their size_t arithmetic is modelled and proved apart); fewer than 2^31-1 references per block; allocation failure is an input of each operation; realloc always moves; new memory holds arbitrary characters; single thread |
| Small-object arrays | `Containers/Array.h` 602-1424 for AllocPolicy SOO: InternalData with Realloc, Lock, Unlock and destructor, Clear, SetArray (pointer, copy, move), LockInternalData, LockInternalDataIncrement, and Array's Reserve, Resize, LockBufferAndSetSize, UnlockBuffer, SetItem, Add, EmplacePtr, Insert, Remove, Sort, constructors, assignment | sizes and lock counts unbounded in the object model (the size_t arithmetic of reservations is modelled apart); an allocation fails when the operation's flag says so; growing always moves; element constructors do not throw; qsort is any function that permutes; pointer arguments do not alias the array |
| Lock-free list | `Sync/InterlockedSingleLinkedList.h`: Push (segment and single), Pop, Flush, destructor's walk | sequentially consistent memory, one access per step; the caller links a segment before Push and re-uses an entry only after it was delivered |
| Interlocked queue | `Sync/InterlockedQueue.h`: Block, Push, Pop | sequentially consistent memory; block indices unbounded; allocation does not fail; one producer and one consumer |
| Copy-on-write arrays used by several threads | `Containers/Array.h`: AddRef, Release, IsShared, Lock, Unlock, Clone, ReAlloc, LockInternalDataIncrement, SetItem, Add, copy, destructor | sequentially consistent memory; no user-held locks; capacity test an input; ReAlloc of the sole owner one step |
| CancellationTokenSource | `Threading/CancellationToken.h`: Create, Register, Unregister, Cancel; `Sync/CriticalSection.cpp` as owner and counter | sequentially consistent memory; a Delegate is a list (C70); the sole handler is not registered again; the lock's operations are one step each |
| AsyncOperation | `Threading/Async.h`: AsyncInfo, AsyncOperation, AsyncOperationImpl::Resolve, all accesses; `Threading/Task.h`: Then, TaskContinueAsyncOperation::OnCompleted up to reading the antecedent | sequentially consistent memory; a Delegate is a list (C70); the sole handler is not added again; the lock is a lock (C43, C44); no timeouts; reference counts and the resume task runner are not modelled |
| Task::WhenAll | `Threading/Task.h` 216-283: WhenAllTaskAsyncOperation, all accesses | the tasks are asynchronous operations as specified for C50; sequentially consistent memory; handlers of the result are not modelled (C50) |
| Task::WhenAny | `Threading/Task.h` 292-371: WhenAnyTaskAsyncOperation, InstallCompletedHandler, OnCompleted, reference counts | the same |
| SequencedTaskRunner | `Threading/SequencedTaskRunnerImpl.{h,cpp}`: PostTaskInternal, operator(), ExecuteTaskRunner, CleanupTaskQueue, Join, Interrupt, destructor; every access to the flags word, reference counts | the queue is atomic (C46, C47); tasks are opaque; Join without timeout; sequentially consistent memory |
| TaskEntry | `Threading/TaskRunner.cpp` 36-163, 365-383: Cancel, Wakeup, RunTask of tasks and timers; the writes of hr in `PostTaskInternal` and `DispatchTask` | queues and timers are positions of the entry; other branches are chosen by the schedule; callbacks throw nothing but OperationCanceledException; sequentially consistent memory |
| SendTask | `Threading/TaskRunner.cpp` 280-308 (posting from another thread), WaitTask; how `PostTaskInternal` of the sequenced and parallel runners ends | the runner is the position of the entry; the timeout of WaitOnAddress is infinite there; sequentially consistent memory |
| Waits of a thread task runner | `Threading/ThreadTaskRunnerWaitManger.h` (all but the destructor), `ThreadTaskRunnerImpl.cpp` 329-373, `TaskRunner.cpp` 575-612 (WaitAsyncOperation) | Cancel from another thread is one step; handlers may set, cancel and drop waits but not run a nested message loop; ticks are whole milliseconds; waits handed to the thread pool are followed no further |
| Thread task runner | `Threading/ThreadTaskRunnerImpl.{h,cpp}` (PostTaskInternal, both message loops, RunTaskRunnerLoop, operator(), Join, Interrupt, CleanupTaskQueue, Wakeup), `TaskRunner.cpp` 420-467 | Push and Pop one step each (C47); line 294 reads the reentry count after the addition; of messages only the number and WM_QUIT are kept; timers, handles and APCs are choices of the schedule; the destructor and EnableWakeup are not modelled |
| Thread pool registrations | `Threading/TaskRunnerDispatchImpl.cpp` 56-173, `TaskRunner.cpp` 142-163, 575-603 | one object; the system calls behave as documented, each is one atomic step; clock and cancellation branches are chosen by the schedule; waits whose object died before the callback are not followed |
| Repeating waits | `TaskRunner.cpp` 330-362 (CreateWait), 509-573 (Wait), 575-608 (WaitAsyncOperation), `Async.h` 163-223, 282-324, 436-471 | The registration is one bit that reports once; the task runner accepts every task; the handler may throw only OperationCanceledException; the destructor of Wait is not modelled |
| NString | `NString.h` 162-895, `String.h` 266-540, 1065-1214, 1291-1296, `StringTransform.cpp` 81-98 | Memory is not exhausted; no buffer is locked between operations; one thread; views do not point into the string that is changed; conversions are an oracle (`UtfModel.v` has them) |
| Asynchronous file operations | `File.cpp` 15-230, `File.h` 42-141, `Async.h` 95-115, 300-315, 546-584, `CancellationToken.h` 127-200, `TaskRunnerDispatchImpl.cpp` 28-51 | Sequentially consistent; one operation; CloseHandle in an assignment or destructor succeeds; the kernel ends a pending call at any time with any status |
| Proxy task runner | `ThreadTaskRunnerProxyImpl.h` 18-366, `TaskRunnerImpl.cpp` 23-39 | Sequentially consistent; queue operations and the destructor are one step; PostMessageW succeeds; Init and the window itself (which is never destroyed) are not modelled; timers are a separate model in which messages come when due or later |
| Tokens | Security/Token.cpp: GetSystemToken, GetLimitedToken, GetImpersonationSystemToken; Security/ThreadImpersonationScope.h; Process/Process.cpp: LowPrivilegeCreateProcessW, GetTokenElevationType | Process names, order of processes and the parameters of CreateProcess are not modelled. The answers of the system are free, except that the linked token is a primary token for the system only and a token for identification cannot be made primary. |
| Thread pool (Linux) | Threading/ThreadPool.Linux.cc, ThreadPool.Linux.h: ExecuteTask, TaskExecuteRoutine; both containers field by field | One block of the queue never fills; x += 1 on an index is atomic; sigwait returns SIGUSR1 only; pthread_create stores the handle before the thread runs. The ghost flag ov records that two threads were inside the same end of a container. |
| Error codes | ErrorCode.h; PostTaskInternal of both thread pools (reference counts) | Codes of winerror.h are not part of the repository. |
| WaitEqualOnAddress | Sync/Sync.cpp 16-93 | The counter runs at 10 MHz and does not wrap (conversions: C37); WaitOnAddress is its documented contract; the read of the value is atomic. |
| Cached time zone | Time/TimeZone.cpp; RefValue and RefPtr as far as used | AddRef and Release are one step; new does not fail; no weak references; handlers registered while handlers run are run. |
| Tasks made on a runner | Threading/TaskRunner.h CreateTask, CreateDelayTask; TaskRunner.cpp SleepAsync; Task.h TaskAsyncOperation::Resume; Async.h Resolve | Settling is one step; the operation is allocated; runners may refuse or drop an entry at any time before it starts. |
| Version queries | Utils/FileInfo.cpp, Utils/SystemInfo.cpp | Answers of the system are arguments; alloca does not overflow the stack. |
| Continuations on a runner | Threading/Task.h Then, ThenError, TaskContinueAsyncOperation, both TaskErrorAsyncOperation, TaskAsyncOperation::Resume; Async.h CreateExceptionPtr | Settling the continuation is one step; the source and the inner task are settled in four; no spurious wake-ups (C80); the inner task is neither the source nor the continuation; reference counts are not modelled. |
| Coroutines | Threading/Task.h TaskAwaiter, Promise, operator co_await; Async.h GetResult, WaitTask, ThrowIfWaitTaskFailed | One co_await per coroutine; settling its own operation is one step, the awaited one is settled in four; no spurious wake-ups (C80); the list of handlers is a flag (C50, C70); reference counts are not modelled; the rules of C++20 for coroutines are as stated in the file. |
| COM objects | Utils/ComObjectImpl.h | Interfaces are numbers with single inheritance; a pointer is the number of the part of the object; AddRef and Release are atomic; clients release only what they hold. |
| ANSI conversions | Strings/StringTransform.cpp 122-361 | WideCharToMultiByte and MultiByteToWideChar are parameters with their documented contract; LockBuffer is the capacity it ends with; conversions between Unicode forms are parameters of the two-step ones. |
| Bind | Functional/Bind.h | Arguments and results are left out; a call is three steps; strong references through weak pointers are taken in one step; a bound function is not destroyed while it is called. |
| Parallel task runner | ParallelTaskRunnerImpl.hpp 129-410 | See the header of ParModel.v. |
| Atomic functions | Sync/Interlocked.h | See the header of InterlockedModel.v. |
| Delays and time-outs | TaskRunner.cpp 20-34, 49-68, 101-140, 218-254, 310-328, 365-382; TaskRunnerDispatchImpl.cpp 56-115 and 117-174 (the times) | Clock readings are arguments, the counter frequency a parameter; allocation and the system calls succeed; reference counts in C93; the timing wheel of the thread runner in C54-C57 |
| Chains of continuations | Task.h 117-207, 389-418, 488-512, 576-602, 618-720; Async.h 64-97, 163-241 as seen by a chain; Exception.h | Sources are settled completely; no runner is named, nobody cancels a stage; one result type; an exception is its type, code and identity, the subtype relation is arbitrary |
| Current task runner | TaskRunnerImpl.cpp 15; TaskRunner.cpp 168-171, 266-292, 414-502; where operator(), ExecuteTaskRunner and TaskRunnerProc set, reset and read the pointer | Queues and counters left out (C59 to C62): the schedule chooses when tasks start; a thread waiting in SendTask is not stopped; callbacks do not throw |
| Runners waiting for each other | TaskRunner.cpp 256-306, 398-411; SequencedTaskRunnerImpl.cpp 75-155 and ThreadPool.Linux.cc 12-38 as a limit on running runners | A task is the list of what it sends and posts; sequenced and thread runners only; everything is accepted, nothing cancelled; which waiting job a free thread takes is the schedule's choice; a thread runner lives to the end |
| Scope guards | AutoCleanup.h 36-64; AutoLock.h 14-55; SRWLock.h 14-60 as a lock | A function is a list of guards, blocks, exceptions and numbered actions; callbacks are numbers; a reader is not stopped by a writer that only waits; an lvalue callback does not change while its guard lives |
| Tokens of weak pointers | CancellationToken.h 29-125, 133-146, 198; RefPtr.h 28-113, 141-146, 276-281; WeakPtr.h 23-150 | One step is one call; ObserverPtr and std::weak_ptr as WeakPtr; the RefPtrs of an object are counted, wherever they are; operator new paired with free is not modelled |
| Number of processors | ParallelTaskRunnerImpl.hpp 18-127 | A group is its mask; the system's answers are inputs; popcnt counts bits |
| Current directory | Path.cpp 576-620; String.h 266-334, 1108-1158 for one unshared string | Characters are numbers; sizes do not wrap; GetCurrentDirectoryW as documented, the directory seen by each call is an input |
| Flags of enumerations | YY.h 52-103; TaskRunner.h 26-46, 99-102; TaskRunner.cpp 72-75; File.h 21-40 | A value is its number; the compound assignments write the value of the operator |
| String forms of the path functions | Path.cpp 316-324, 356-366, 383-391, 405-413, 427-435, 443-447; String.h 806-873 as texts; StringView.h 30-60, 122-130, 533-555 | Addresses count characters, below 2^62; a string is its text; memory suffices |
| Formatted text | String.h 47-131, with 266-360 and 1087-1158 for one string; tchar.h 98-168 | A conversion gives a text; printf as documented; no locks; other holders keep a shared buffer during the call |
| Deprecated asynchronous calls | File.h 190-263, 344-369 (AsyncRead, AsyncWrite, AsyncConnect), with File.cpp 37-47, 56-109, 166-250 and Task.h 118-138, 478-512 for one call | No token; callbacks return; references are not counted (FileModel.v has them) |
| CompareExchangeTwoPoints | `include/YY/Base/Sync/Interlocked.h` 460-481 (TwoModel.v) | The 64-bit and 128-bit exchanges are single steps as documented; alignment is not modelled; the retry loop is not in the repository. |

General simplifications: memory is typed and addresses are names; the C++ memory model is taken as sequentially consistent where threads are modelled; `noexcept`, calling conventions and debug assertions are not modelled unless a theorem mentions them.

Not modelled: the operating system calls behind `File`, `ThreadPool`, `Process`, `Environment` and the message loop; exceptions from user callbacks; allocation failure outside the array policies; template instantiation and overload resolution (a member is modelled at the types named in its model file).

## Status per property and findings

`REFUTED` means that the property, as stated in `properties.jsonl`, is false for the code as
modelled; the theorem named `..._refuted` proves it with a witness, and the other theorems of
the property prove the part that does hold.

* **C01** (partial): Proved in full for trivially copyable elements. For other element types Insert and Remove are covered where C06 holds (C01_values_nontrivial_partial). REFUTED elsewhere: inserting at the front of an unshared array of five, or removing its first element, reports S_OK and leaves other elements (C01_nontrivial_refuted, from C06). Moving from an array whose buffer is shared with the destination leaves the source as it was.
* **C02** (proved).
* **C03** (proved): Any number of threads (new ones appear when an array is copied), every interleaving of the accesses to iRef and to single elements, block addresses re-used by the allocator: no access to a freed block and no exception; the log of all operations, reads included, is a run of a specification without sharing; a writer is the only user of its block; iRef is exact; nothing leaks; no thread gets stuck. Memory is sequentially consistent, buffers are not left locked between operations.
* **C04** (partial): REFUTED in full: the byte count of a reservation wraps (2^61 elements of 8 bytes get 0 bytes; 2^64-15 or more elements count as reserved inside the object); a moved-from array is emptied or unchanged depending on where its elements were; Insert and Remove of elements with their own move lose values (C06). Proved, for any number of arrays, any history, any inside capacity, with allocation failures, locks, exceptions and abort: results and contents as specified (C04_refines_partial: everything but the overlapping moves of C06), plain-list behaviour without locks/failures (C04_list_partial), storage of the recorded capacity with elements exactly in its first uSize cells and no access outside it, every heap block owned by exactly one array, others unchanged, what a move does exactly.
* **C05** (proved).
* **C06** (partial): REFUTED for element types with their own move: ConstructorPolicy::Move runs backward when the destination lies before the source and forward when it lies after, the wrong way round, so every overlapping move by less than the count corrupts elements (C06_Move_overlap_refuted). Proved for trivially copyable types, and for non-overlapping moves.
* **C07** (partial): Pointer stability, exclusiveness, nesting and unmatched unlock proved. REFUTED: locking an empty array (static buffer) with size 0 succeeds but its UnlockBuffer throws; a partial Remove shrinks a locked array.
* **C08** (partial): REFUTED: a refused copy assignment leaks a reference of the source (C08_leak_refuted), a refused move loses the source's elements (C08_move_refuted) and ends the program in the noexcept operator (C08_move_terminates_refuted), and assignment from a locked source that fits is not refused (C08_not_refused_refuted). Proved: a refused copy assignment leaves all contents, pointers and lock counts as they were.
* **C09** (proved).
* **C10** (proved).
* **C11** (partial): Windows/AMD64 build proved in full. REFUTED for the portable build: BitFind returns 0 when nothing is found, BitReset clears bits 32-63.
* **C12** (partial): REFUTED in its memory clause: Pop never frees the node it unlinks, one leaked node per popped entry (exact count: C12_leak). The set behaviour is proved in full.
* **C13** (proved).
* **C14** (proved).
* **C15** (proved).
* **C16** (partial): REFUTED for Slice (C16_Slice_refuted): removeStart+removeEnd wraps modulo 2^64 and the result lies outside the span; Slice proved for sums below 2^64, Subspan for all arguments.
* **C17** (proved).
* **C18** (proved).
* **C19** (partial): REFUTED for Span::operator!=: on equal lengths it is true exactly when some position holds EQUAL elements (test inverted); this exact behaviour is C19_span_not_equal_partial. operator== and StringView::operator!= proved.
* **C20** (proved).
* **C21** (partial): REFUTED in full: SetItem, LockBuffer and SetANSIEncoding on a string that shares its buffer leave it empty (length 0) and report success; appending a string to itself reads freed memory; Remove on a shared string with an allocation failure writes through null; assigning to a locked string frees the buffer being written. Proved: outside those cases every history refines independent values with specified results (C21_values_partial); in every safe history no undefined behaviour, no effect on other strings, exact reference counts, no leak; what SetItem/LockBuffer do on a shared string, exactly.
* **C22** (partial): REFUTED for TrimEnd: every text with a non-empty body and a non-empty trailing run is left wrong, and the theorem C22_TrimEnd_exact says what it becomes. Proved: TrimStart, and TrimEnd on texts with nothing or everything to trim.
* **C23** (partial): REFUTED in full: after SetItem on a shared string the (empty) text is not terminated, and the size in bytes wraps for huge lengths given to LockBuffer. Proved: length <= capacity and a terminator inside the buffer in every reachable state; terminator right after the text in histories without the shared cases; sizes in bytes correct while they fit in size_t.
* **C24** (partial): Proved total order for 8/16-bit units and counted comparison. REFUTED: char32 units 2^31 or more apart; Compare with a terminated string when the view embeds NUL; counted StringCompare reads one past the count.
* **C25** (proved).
* **C26** (proved).
* **C27** (partial): REFUTED for one code point: U+E000 is taken for a surrogate and written as '?' (C27_u16_u8_refuted). Exact output for every text in C27_*_exact; proved for all texts without U+E000.
* **C28** (partial): LE->BE, BE->LE and BE->BE proved. REFUTED for LE->LE: both surrogates are cast to an 8-bit character (C28_u32LE_u16LE_refuted); exact output proved, right for texts in the basic plane.
* **C29** (partial): Both directions, both byte orders proved for all texts; the round trip also for all values below 2^26. REFUTED for 2^26..2^31-1, which the code also means to support: the second byte of the six byte form is or-ed with 0xF0 in place of 0x80.
* **C30** (partial): No overrun and append-or-unchanged proved for all 16 functions except one: UTF-16 LE to UTF-8 clears the destination when a later allocation fails (C30_u16LE_u8_refuted).
* **C31** (proved).
* **C32** (partial): REFUTED as stated (C32_udiv128_refuted): for divisors over 2^32 the shifted remainder loses bits. Proved for divisors up to 2^32 and for a zero high word.
* **C33** (partial): REFUTED as stated for denominators over 2^63 (remainder*2 wraps) and for the portable build; proved exact for denominators up to 2^63, with the exact trap condition.
* **C34** (proved).
* **C35** (proved).
* **C36** (partial): REFUTED before C++20 for operator> only (it is >=, TimeSpan.h 152); units, arithmetic and all other operators proved.
* **C37** (partial): REFUTED for negative spans on counters below 10 MHz; proved for all spans on counters of at least 10 MHz and for non-negative spans on slower ones. C37_TickCount_duration_refuted: the step is not the span's duration unless the frequency is a multiple of 10 MHz.
* **C38** (partial): REFUTED before C++20 for operator!= only (it is >, Version.h 84); all other operators and C++20 mode proved.
* **C39** (proved).
* **C40** (proved): Proved for any number of holders and every interleaving of the atomic accesses to one object: no use after free, destructor and Free at most once and exactly once when all are gone, WeakPtr::Get succeeds only before the destructor starts, no resurrection. Counters do not overflow in the model.
* **C41** (proved): Proved: no operation touches a dead object, the count equals the number of holders, each object is destroyed exactly once when its last holder leaves, and the variables hold what plain pointers would hold.
* **C42** (partial): REFUTED: assignment between observers (copy and move) copies only the observer data, so Get gives the old object, even after its destruction; a copy of an observed object shares its observer data, so destroying the copy makes the observers of the original expire. Proved for histories without these two.
* **C43** (proved): Proved: no double delete, every object has exactly one owner or was deleted exactly once, contents as with plain pointers.
* **C44** (proved): Proved: no double close, every open handle has exactly one owner, two variables never own the same handle, contents follow the specification for every outcome of the duplicate call. The registry specialisation inverts the error code of CloseHandle (Handle.h:68-74); its only caller ignores it.
* **C45** (partial): REFUTED: the counter starts at 0 on the first Lock and Unlock releases only when the decremented counter is 0. One Lock and one Unlock therefore never release the lock, and Lock, Lock, Unlock releases it one call too early, so that two threads hold it. Without nesting exclusion holds, but the first owner keeps the lock for ever. Exact behaviour of one thread proved.
* **C46** (proved): Any number of pushing threads and one consumer, every interleaving of loads, stores and compare-exchanges, entries pushed again after delivery: linearizable to a stack; counts of pushes and deliveries agree; flush order; the consumer never reads an entry that somebody else may already own. C46_two_consumers_fail shows that the documented single-consumer restriction is needed.
* **C47** (partial): REFUTED: for every block size there is a schedule in which a Pop that found its block empty deletes it after the producer filled it, losing a whole block of entries (C47_race). Proved for every schedule: no undefined behaviour, popped entries are a subsequence of the pushed ones in order without duplicates, exactly the reachable blocks are allocated (and the last one is never freed: there is no destructor); prefix property, nothing lost and null only when empty for schedules without that race.
* **C48** (partial): Proved for 32-bit words, alone and under contention: every interleaving of BitOr/BitXor/BitAnd (compare-exchange loops), BitSet, BitReset and Add is linearizable, a failing exchange is paid for by a finished call. REFUTED in the portable 64-bit forms: BitSet shifts an int by 32 or more, BitReset clears the whole high half of the word; and the overloads of BitReset for signed 32-bit words call themselves for ever. Signed Subtract is undefined for the least number only.
* **C49** (partial): REFUTED: with the code's CriticalSection (C45) a thread that has used the token keeps the lock, so Cancel on another thread waits for ever and no handler is ever called (C49_refuted, and C49_stuck for every such state); the only registered handler is accepted a second time and then called twice (C49_twice_refuted). Proved for every schedule, any number of threads and handlers that themselves call Register, Unregister and Cancel: the log of all calls is a run of a sequential specification, each registration is called at most once and, when Cancel has returned true, exactly once unless it was unregistered; the delegate is used by one thread at a time; every call takes a bounded number of steps; with a corrected lock (counter 1 after the first Lock) no set of calls can block. Missing: registering the sole handler again.
* **C50** (proved): Proved for every schedule, any number of threads and handlers that themselves make calls on the operation: the log is a run of a sequential specification; one decision, by the call that made it; each accepted handler is called once with the status decided unless removed; when all calls have returned none is missing; every call takes a bounded number of steps; calls block only in GetResult of an undecided operation.
* **C51** (partial): REFUTED: SetExceptionPtr decides the status first and stores the exception afterwards, so a continuation attached in between sees status Error, no exception and the code E_PENDING (which SetExceptionPtr of the continuation turns into E_UNEXPECTED). Proved: a continuation called by the completing thread or attached after hr was written sees status, exception and error code.
* **C52** (partial): REFUTED: a task that fails while WhenAll attaches to it (status decided, hr not yet written) is reported as E_PENDING. Proved: Resolve at most once and only after every task was decided; S_OK exactly when all completed; otherwise the error of the failing task with the lowest index unless some code was read before it was written; private fields used by one thread at a time; object alive while used and freed afterwards; complete when all tasks have called their handlers; bounded steps.
* **C53** (partial): REFUTED as to the references: when a task had already been decided, its handler is refused and the handler's reference to the operation is never reset (the rollback loop starts below it), so the object is never freed. Proved: completed at most once, with the index of a task decided before or of an empty one; complete when some task has called its handlers; object alive while used; exactly one reference is left if a handler was refused and none otherwise; bounded steps; no step is stuck.
* **C54** (partial): Proved for timers set at most 2^22 ms ahead, at millisecond granularity. REFUTED: a timer set further ahead can be dispatched 70 minutes early (it is moved into the bucket that is emptied right after, C54_far_timer_early_refuted); expiry times are cut to milliseconds, so a timer may be dispatched a fraction of a millisecond early (C54_within_millisecond_refuted).
* **C55** (proved).
* **C56** (partial): Proved (every pending timer expires after the last 8 ms boundary) for histories that leave out no fetch and set no timer in the current 8 ms block. REFUTED: a timer set for the current 8 ms block is about one second late, and a processing that starts in the last block of a turn and ends past the first block of the next leaves out the fetch, which makes timers over an hour late.
* **C57** (partial): Proved for those histories as long as a wheel holds a timer or the far timers are at least 2^22 ms away. REFUTED when only a far timer remains and the wheel has moved: 70 minutes oversleep (C57_far_only_refuted).
* **C58** (partial): REFUTED when a wait is set on a handle that another pending wait of the same thread uses: SetWaitInternal cancels the old wait, which removes its slot by moving the last one into it, and then stores the new wait in the stale index. The moved wait is lost and the new one is completed by a foreign handle (C58_refuted); with one slot the new wait is accepted but never waited for (C58_lost_refuted). Proved for all runs in which no wait is asked for while another is pending on its handle: completions come from the own handle (C58_partial), pending waits keep exactly one slot whatever happens to the others and a signal completes them (C58_kept_partial), a timeout completes exactly the waits that are due (C58_expired_partial), the thread does not sleep past the earliest deadline (C58_minimum_partial). Proved for all runs: no wait expires early (C58_punctual), the arrays are not overrun (C58_bounds).
* **C59** (partial): Proved for every execution: tasks never overlap (as long as the 29-bit count does not overflow, which needs 2^29-2 waiting tasks, C59_full), leave the queue in the order of acceptance and once. REFUTED in one respect: the queue's Pop is correct for one popping thread, and after Interrupt the old worker's clean-up and the new worker are in Pop at the same time (C59_pop_refuted). C59_pop_partial: without Interrupt, a refusing thread pool or a worker that found the queue empty, two threads are in Pop only when the queue is empty, the runner stopped and no worker left.
* **C60** (partial): REFUTED: lost wake-up. A posting thread increments the count (compare-exchange) before it pushes; the worker, finishing the previous task, counts the new one as work, finds the queue empty and ends without another look; the posting thread starts no worker since the count was not 0 (C60_refuted). From then on no task of this runner is ever run, whatever is posted (C60_dead). Proved (C60_partial, C60_drains): as long as no worker found the queue empty, the runner is not interrupted and the thread pool accepts workers, a worker exists whenever tasks are queued and nobody posts, and then all accepted tasks end within a bounded number of steps.
* **C61** (partial): Proved for every execution: never more running tasks or workers than the largest limit set (C61_limit), each accepted task is started or cancelled at most once (C61_once, C61_distinct), tasks leave the queue in the order of Push, two threads are never in Pop at once. REFUTED in one respect: the queue's Push is correct for one pushing thread, and CleanupTaskQueue resets bPushLock while a thread may be in Push, so two threads can be in Push at once (C61_push_refuted); C61_push_partial: not before the first clean-up.
* **C62** (partial): Proved for every execution with any number of cancelling threads, for tasks, timers and periodic timers: Cancel returns true exactly once (C62_cancel), an entry cancelled before it started is not run (C62_norun), between two resets of hr it is written at most once (C62_once), without Cancel the result is that of the callback (C62_result). REFUTED in one respect: a timer cancelled between DispatchTask's check and PostTaskInternal's hr = E_PENDING is never given a result again, because RunTask returns without Wakeup when it finds the entry cancelled; WaitTask then hangs (C62_refuted). C62_partial: a finished entry has a result unless hr was reset after Cancel.
* **C63** (partial): REFUTED three times: the worker's Release follows its Wakeup and decrements a count in the sender's dead frame (C63_refuted); WaitTask trusts a single WaitOnAddress, which may return spuriously, and the worker then runs a dead callback (C63_spurious_refuted); a parallel runner reports the failure of the pool with the task still queued (C63_parallel_refuted). Proved: without spurious returns and without that failure the only access after the return is that one Release (C63_partial, C63_once_partial).
* **C64** (proved): Proved: the root is exactly the one described by an independent grammar of six root forms; unique, idempotent, unaffected by what follows.
* **C65** (partial): Proved: exact effect, shorter iff true, root kept, walking up ends at the root (rooted) or the empty path (relative, no leading separator). C65_walk_up_refuted: the rootless \\?a\b ends at \.
* **C66** (partial): REFUTED: a file directly below the root keeps the root in its name (C:\a.txt), and GetFileNameWithoutExtension returns the extension. Exact results proved; the last component for rootless paths; the extension is right relative to the name.
* **C67** (partial): Proved for an unshared base. REFUTED for a base whose buffer is shared (its text is lost) and for device paths \\.\x, which are treated as relative.
* **C68** (proved).
* **C69** (proved).
* **C70** (partial): REFUTED for one case: accepting the only handler of a delegate a second time closes the ring on itself (C70_AddHandler_refuted). Everything else proved.
* **C71** (partial): REFUTED: the byte count and the rounding to 16 wrap modulo 2^64 (Reserve(2^62) of 4-byte elements gets 32 bytes, Resize(2^64-1) the static buffer). Exact condition proved in C71_Alloc_exact.
* **C72** (partial): REFUTED for Insert and Add(pointer, count): they read freed memory when the block has no room, and Insert reads a shifted element when it is behind the place of insertion; exact conditions proved. SetItem proved.
* **C73** (partial): REFUTED for the build without _MSC_VER: the whole block is cleared (C73_old_lost_refuted; kept exactly if it was zero, C73_kept_iff_zero). The added bytes are zero (C73_new_zero).
* **C74** (partial): Proved when the first wheel holds a timer. REFUTED in the last block of a turn of the second (third) wheel, where the result lies a minute (an hour) in the past (C74_busy_loop_refuted).
* **C75** (partial): REFUTED for U+E000, written as '?'; exact output proved for every text, right for all texts without U+E000.
* **C76** (partial): Proved for UTF-8->UTF-16, UTF-16->UTF-32, UTF-32 BE->UTF-16 and TransformEndian. REFUTED for UTF-8->UTF-32 BE and UTF-32 LE->UTF-16 BE, where a '?' is written unswapped.
* **C77** (partial): Proved for qualified, relative and root-relative paths. REFUTED for drive-relative paths: IsSameVolume returns the comparison result itself, so same and different drives are confused; exact result proved (C77_drive_relative_exact), and for all texts with and without a device prefix C77_same_volume_exact: it says yes exactly for different names of the same length. On Linux IsPathFullyQualified reads the first character of an empty path.
* **C78** (proved): REFUTED: in every reachable state with an empty destination and a non-empty source, a successful TransformEndian(&&) leaves the destination pointing to a freed block.
* **C79** (partial): REFUTED: appending to a shared ANSI string, or copying a locked one, resets the code page. Proved: a copy of an unlocked string keeps it.
* **C80** (partial): REFUTED: WaitTask waits with a single WaitOnAddress; after a wake-up without reason GetResult returns a result that has not been constructed (status already Completed, result not yet written) or throws E_FAIL. Proved when no wake-up is spurious.
* **C81** (partial): REFUTED after Interrupt: the clean-up of the old worker sets the flags to 6 while the next worker still runs a task, and Join returns (C81_refuted); after a refusal by the thread pool Join returns although an accepted task lies in the queue for ever (C81_fail_refuted). Otherwise proved (C81_partial).
* **C82** (proved).
* **C83** (partial): REFUTED three times. (1) Without any race: a user with one reference posts a task and waits for it; the worker releases its own reference, finds IsShared false, cleans up and thereby stops the runner, so the next task is refused (C83_refuted). (2) A posting thread counts its worker before it takes the reference, so another thread's worker finds IsShared false and cancels accepted tasks (C83_race_refuted). (3) Lost wake-up: the only worker finds the queue empty between the count of a task and its Push and leaves; the task stays in the queue (C83_lost_refuted). Proved: if none of the odd events happens (a worker found the queue empty or the runner unshared, Interrupt, refusing thread pool, overflow of the 28-bit count, acceptance after the stop), a queued task has a worker (C83_partial), at rest all accepted tasks have ended (C83_rest_partial), the workers alone can always get there (C83_drains); a second reference of the user excludes the first two failures (C83_shared).
* **C84** (partial): REFUTED: if the user drops the last reference before the worker checks IsShared, the last worker leaves by line 358, which does not Release, and the runner is never destroyed (C84_leak_refuted); if they drop it while the last task runs, the worker's Release destroys the runner and the worker then calls IsShared of it (C84_use_refuted). Proved: while the user holds a reference neither happens (C84_partial), exactly how many references are left over (C84_exact), the destructor runs at most once (C84_once).
* **C85** (partial): REFUTED: a thread past the check for the stop flag has its task accepted after Join returned (C85_refuted; the loop does not check again); after Interrupt a leaving worker sets the flags to 6 while another still runs a task and Join returns (C85_int_refuted). Otherwise proved (C85_partial).
* **C86** (partial): REFUTED under spurious returns of WaitOnAddress: SendTask returns E_PENDING while the callback runs (C86_refuted). Proved otherwise (C86_partial), with no lost wake-up (C86_wakes_partial); always: the callback runs at most once (C86_once) and everything ends within twelve steps (C86_bounded).
* **C87** (partial): Order and nesting proved for all runs (C87_fifo, C87_accepted). One pusher at a time is REFUTED after CleanupTaskQueue: its Exchange releases a push lock that a poster holds (C87_exclusive_refuted); proved before (C87_exclusive_partial).
* **C88** (partial): REFUTED in two cases: a message callback that enters a loop makes the number of nested loops exceed the number of running tasks, so an accepted task is taken for the running one and left (C88_nest_refuted); a timer callback running its own message loop removes the wake-up message after the pending count was read (C88_eat_refuted). Proved for all other runs with fewer than 2^28 counted tasks and no cleanup: sleeping implies all started (C88_partial), and the next task starts within a bound (C88_progress_partial).
* **C89** (partial): REFUTED: entered from a message callback with no task pending, the nested loop spins on the empty queue, never looking at messages, until somebody posts or interrupts (C89_refuted). Loops entered only by tasks never find the queue empty (C89_partial).
* **C90** (partial): REFUTED in one direction: Join waits for the value 6 that only CleanupTaskQueue writes, so with a task outstanding it does not return when the task ends, and never without interrupt, release or WM_QUIT (C90_waits_fail, C90_refuted). A Join that returns at once does so after every accepted task has ended (C90_partial).
* **C91** (partial): REFUTED: a post that holds the push lock when CleanupTaskQueue stores the flags adds 15 to 6, which sets the lock and clears the stop flag: the post succeeds, its task is never run or cancelled, later posts spin for ever and no join returns (C91_refuted). Proved when posting is refused and no post is under way (C91_partial). The destructor's own cleanup is not modelled.
* **C92** (partial): REFUTED: neither the release nor Interrupt wakes the loop (C92_refuted, C92_interrupt_refuted), and a nested loop counts the outer loop's reference as a user (C92_nest_refuted). When the outermost loop is woken by a message it ends and cancels what is queued (C92_partial).
* **C93** (partial): REFUTED: Cancel takes the handle, the callback then runs to its end, and DeleteTimerQueueTimer succeeds because no callback is running, so the reference is released twice (C93_refuted). Also without any Cancel when the callback runs before CreateTimerQueueTimer has stored the handle: the next SetTimerInternal deletes the fired timer and releases again (C93_handle_refuted). Proved for all runs free of these two races: at most one release, no double deletion, the count is exact (C93_partial), exactly one release when all calls have ended (C93_settled_partial); all calls end (C93_ends).
* **C94** (partial): REFUTED when the callback runs before the handle is stored: the fired timer stays registered and nobody deletes it unless the object is set or cancelled again (C94_refuted). Proved for all runs free of the two races of C93: C94_partial, C94_single_partial.
* **C95** (proved): Proved for all runs (C95_order, C95_serial, C95_result, C95_stop).
* **C96** (partial): REFUTED twice. The thread that reports a completion publishes the result before it takes the handlers (Async.h 311-316), and RunTask can run, reset the operation and install the handler of the next round in between; the slow thread then takes that handler away and calls it with status Started, which OnCompleted drops: the next signal calls nobody and the Wait is dead although nobody cancelled it (C96_refuted). If the wait cannot be set, SetErrorCode calls OnCompleted with Error, which is dropped too: CreateWait succeeds, the handler is never called and waiting for the Wait never ends (C96_fail_refuted). Proved for all runs without Cancel, refused waits and overtaken reporters (C96_partial); for all runs some thread can go on until all are done (C96_live) and without new signals they are done after a bounded number of steps (C96_ends).
* **C97** (partial): REFUTED: RunTask checks for cancellation once, so Cancel can return before the handler is called (C97_refuted); if it returns while the handler runs and the handler asks to go on, RunTask arms the wait again and sets the result code of the Wait back to pending, so the wait stays registered and whoever waits for the cancelled Wait waits for ever (C97_armed_refuted). Proved for all runs: at most one call after the first Cancel (C97_once); if RunTask was not past its check at the first Cancel: no call, not armed, no handler installed, waiters woken (C97_partial).
* **C98** (partial): REFUTED in four ways. SetEncoding of an empty string that owns its buffer calls ClearAndUpdateEncoding, which scales the capacity, and then scales it again (NString.h 171-187): 255 characters recorded for 64 bytes (C98_overrun_refuted), and in the other direction SIZE_MAX (C98_wrap_refuted); the next append writes behind the buffer. Between the byte orders of UTF-16 and UTF-32 the buffer is attached and then released (StringTransform.cpp 81-98), so the string keeps a freed buffer (C98_dangling_refuted). If an empty string shares its buffer with exactly one other string, SetEncoding leaves the buffer and then, as the count fell to one, relabels and scales the buffer that now belongs to the other string alone (C98_stale_refuted). Proved for all sequences without those operations and the ones excluded for C99 (C98_partial).
* **C99** (partial): REFUTED: SetEncoding(UTF32BE) of an empty shared string ends in UTF16BE, as line 844 names szUTF16BE, and the string it shared with is relabelled (C99_encoding_refuted); from code page to code page the bytes are relabelled without conversion, and if the buffer is shared the text is lost and S_OK returned (C99_page_refuted); text of another code page is appended as it is, and an append to a shared string of a code page resets the code page (C99_append_refuted). Proved for all other operations, whatever the conversions do (C99_partial).
* **C100** (partial): REFUTED for SetEncoding: the old text has been moved away and is released when the conversion fails, so the string is empty in the new encoding (C100_refuted). Proved for AppendString (C100_partial).
* **C101** (partial): REFUTED for the last clause: if a handle skips packets on success and the AsyncFile does not know it, as after the move constructor (C106) and for every AsyncPipe, a call that succeeds at once leaves the kernel's reference behind and the operation is never freed (C101_refuted). The rest is proved for every object that makes no false promise, which C106_honest shows (C101_safe, C101_no_dangling); the last clause when the flag is right (C101_partial).
* **C102** (proved).
* **C103** (partial): REFUTED: Cancel calls CancelIoEx, which only asks, and settles the operation at once; the waiter goes on while the kernel still owns the buffer and the OVERLAPPED (C103_refuted). Proved: an operation that ends as completed is out of the kernel, and one that is settled while in the kernel was cancelled explicitly (C103_partial).
* **C104** (partial): REFUTED for tokens: Register returns false when the token has been cancelled in the meantime, and ReadAsync does not look at the result (File.cpp 92-95), so the operation stays in the kernel (C104_refuted). Proved for all other timings (C104_partial) and for Cancel of the Task (C104_cancel).
* **C105** (proved).
* **C106** (partial): REFUTED for the last clause: the move constructor copies the handle and not bSkipCompletionNotificationOnSuccess (File.h 56-60; C106_refuted). Proved: ownership (C106_ownership), that the flag is never set for a handle that does not skip (C106_honest), and that it is right if the move constructor is not used (C106_partial).
* **C107** (proved).
* **C108** (partial): REFUTED: if a task runs a message loop of its own and the inner call of ExecuteTaskRunner finds no task, the message that was to cover later posts is used up; a task posted while the outer one runs is never run, nor is any later one (C108_refuted, C108_stuck). REFUTED also without nesting: Join between the count (line 167) and Wakeup() of a post that succeeds leaves the task in the queue for ever, and Join never returns (C108_join_refuted). Proved without nested dispatch and Join (C108_partial, C108_served_partial).
* **C109** (partial): REFUTED: the bit-fields of lines 31-35 have 33 bits, so uWakeupCount is a second word that is always zero, and line 348 cleans the queue up at the first message after Join: accepted tasks are cancelled (C109_refuted). With a nested message loop Join returns while a task is running (C109_nested_refuted). Proved without nesting: when Join returns nothing is running and all accepted tasks were started or cancelled (C109_partial), and nothing is accepted after the cleanup if no post overlaps it (C109_closed_partial).
* **C110** (partial): REFUTED: a timer set on another thread goes into the wheel, but ExecuteTimerTasks is not called (lines 187-190), so without other timers it never fires (C110_other_thread_refuted, C110_never). REFUTED: the wait is rounded down, WM_TIMER comes up to 1 ms early, and since the wake-up time has not changed SetTimer is not called again: the timer fires a whole period late (C110_period_refuted). Proved for timers set on the runner's own thread: the window timer runs whenever a timer is pending (C110_armed_partial); and each time it is set its first message is due in time (C110_set).
* **C111** (partial): REFUTED in one point: the system's token is taken from the first process in the session whose file name is winlogon.exe, whoever started it (C111_name_refuted). Proved for all runs: published once, never closed (C111_once), no leak and no double close (C111_handles), kinds apart from that (C111_kinds).
* **C112** (partial): REFUTED: the result of SetThreadToken in the destructor is ignored; if it fails the thread goes on as the system (C112_refuted). REFUTED: GetImpersonationStatus is never called in LowPrivilegeCreateProcessW; if the scope could not be entered, SeImpersonate and SeAssignPrimaryToken are enabled in the caller's own thread token and stay enabled (C112_priv_refuted). Proved otherwise (C112_partial, C112_priv_partial).
* **C113** (partial): One process if and only if S_OK: proved for all runs (C113_one). REFUTED: limited rights. Every failure on the way falls back to CreateProcessW, and S_OK does not tell; moreover, if any thread has called Token::GetLimitedToken without being the system, the linked token in the cache is for identification only and no later call creates a limited process; likewise if the elevation type could not be read the first time (C113_refuted, C113_spoilt). Proved if nothing fails, winlogon.exe is the real one and nobody else asks for the limited token (C113_partial).
* **C114** (proved): Proved for all runs, for any limit (C114_limit, C114_answer, C114_reason).
* **C115** (partial): REFUTED twice, for any limit. A caller that found the limit reached pushes its task after the last thread has looked at the queue: the task stays there until somebody calls ExecuteTask again (C115_lost_refuted). Both containers are used by several threads at an end that is written for one: two threads read the same slot of the queue and run (and delete) the same task (C115_twice_refuted); two callers in Pop of the idle list corrupt it (Example C115_aba). Proved as long as no end is used by two threads at once: never twice, and at rest every accepted task has been run or is in the queue; a task that never went through the queue has been run (C115_once_partial, C115_direct_partial, C115_progress_partial).
* **C116** (partial): REFUTED: a thread pushes itself on the idle list before it blocks SIGUSR1; a call in between sends it the signal, whose default action terminates the process (C116_killed_refuted). REFUTED: with two consumers the read index overtakes the write index (C116_wild_refuted). Proved if the creators of the threads block the signal (C116_inherited_partial), and that the window is the only one (C116_window_partial).
* **C117** (partial): REFUTED outside Windows: all error constants are positive, so FAILED is false for each of them, and seven of them are equal (C117_constants_refuted); with a 64-bit long HRESULT_From_LSTATUS never yields a failure (C117_status_refuted); PostTaskInternal tests FAILED and so leaks a reference of every refused task (C117_refs_refuted). Proved for a 32-bit long and for the Windows pool (C117_status_partial, C117_refs_partial, C117_linux_partial).
* **C118** (partial): REFUTED: a time-out below one millisecond does not wait, and the last fraction of a millisecond is not waited for (C118_early_refuted); after a time-out the value is not read again, so false is returned although it has been equal for almost the whole call (C118_missed_refuted); a time-out of 2^32-1 ms or more is cut to INFINITE and does not expire (C118_long_refuted). Proved: true means equal at the return (C118_true, C118_bytes); false means that it was different at some moment of the call and less than 1 ms of the time-out is left, and never happens for GetMax (C118_false_partial); shorter time-outs end the call (C118_ends_partial), at most four steps late however often it is woken (C118_bound_partial); the supported sizes (C118_size).
* **C119** (partial): REFUTED: a call that has read the pointer but not yet called AddRef uses a destroyed object if an exit handler runs in between (C119_alive_refuted); the zone is that of the first call for the rest of the process (C119_current_refuted). Proved if no handler releases the object in that window: no destroyed object is touched (C119_alive_partial), nothing leaks (C119_freed_partial); until the handlers run all calls return the same object (C119_same_partial). Found by reading, not modelled: the object is created by new and freed by free().
* **C120** (partial): REFUTED: the answers of PostTask and PostDelayTask are ignored and nobody settles the operation of an entry that was refused or dropped: it stays Started for ever and who waits for it waits for ever (C120_settles_refuted, for all three functions). REFUTED: a cancelled token does not settle a delayed task or a sleep before its time (C120_prompt_refuted). Proved: C120_once, C120_truth, C120_not_called, C120_unposted (a token cancelled before the task is made keeps it from being posted), C120_late_cancel (one cancelled while the callback runs keeps it from completing); settled whenever the entry was executed (C120_settles_partial).
* **C121** (partial): REFUTED: a disk error between the two reads leaves the low half of the version behind a failure (C121_zero_refuted). Proved: S_OK only with the right version (C121_found), zero after any other failure (C121_zero_partial), the module is freed unless an exception the filter does not take leaves the function (C121_freed), the copy for old systems (C121_copy), versions of the system (C121_os, C121_packs).
* **C122** (proved): All proved (C122_once, C122_argument, C122_truth, C122_not_called; C122_exception and C122_inner_exception: an exception of a source or inner task that was settled completely before it was looked at is passed on itself, with its code). Finding: the comment at Task.h 140-143 promises that ThenError also handles a source that was Canceled, but the continuation shares the token of the source, so for a source that is cancelled through its token the callback is never called (C122_not_called). ThenError, unlike Then (C51), gets the right exception even if it is attached while the source is half settled.
* **C123** (partial): REFUTED: the answer of PostTask is ignored (Task.h 507, 552, 597, 674) and nobody settles the continuation of an entry that was refused or dropped: it stays Started for ever (C123_settles_refuted). REFUTED: after the runner has expired the callback of ThenError runs in whichever thread completes the source (591, 668), and that of Then too if that thread has no runner, because two null pointers are compared (495, 540); otherwise Then fails with ERROR_CANCELLED (C123_place_refuted). REFUTED: an inner task that fails while it is being attached is reported as E_UNEXPECTED without its exception (639; C123_code_refuted). Proved: settled unless the entry was lost (C123_settles_partial), the callback was called or there was a reason not to (C123_called_partial), the place as long as the runner lives (C123_place_partial).
* **C124** (partial): Proved: C124_safe (no undefined use of the frame), C124_result, C124_place, C124_own. REFUTED: the failure of a task whose token is cancelled as well is not seen: depending on the moment co_await throws OperationCanceledException or Exception(E_FAIL) instead of the task's exception (Async.h 165, 170; C124_masked_refuted).
* **C125** (partial): REFUTED: when the runner has expired the coroutine is destroyed at the await (Task.h 906-909): the rest of it never runs and its own task stays Started for ever (C125_gone_refuted). REFUTED: the answer of PostTask is not used (901-905): refused or dropped, the coroutine never goes on, its task stays Started and its frame is never freed (C125_lost_refuted). Proved: it comes to its end if the runner lives and does not lose the entry (C125_settles_partial); there is no other end (C125_ends_partial).
* **C126** (partial): REFUTED: the assertion only asks that some base inherits from IUnknown, while the fallback reinterprets the first base (lines 173-180): with another class in front the pointer handed out for IUnknown is not one (C126_unknown_refuted). REFUTED: a chain in the wrong order compiles, because static_cast also casts down (line 62), and the object hands out an interface that it does not implement (C126_order_refuted). Proved for the documented use: C126_found (for all declarations), C126_usable_partial, C126_rules_partial, C126_defined_partial.
* **C127** (partial): REFUTED in theory: uRef is 32 bits wide, with 2^32 + 1 references one Release deletes the object (C127_wrap_refuted, C127_reached_refuted). Proved for fewer than 2^32 references at a time (C127_deleted_partial).
* **C128** (proved): Proved: C128_owes, C128_ends (62 turns are always enough), C128_fits, C128_via for the other Unicode forms. What the system converts is a parameter; assumed of it is that success on some text gives some text, that an error is not ERROR_SUCCESS, and that no buffer has 2^62 characters.
* **C129** (partial): REFUTED: the result of MultiByteToWideChar is not looked at (lines 308-311): for every text that the system cannot convert the answer is S_OK and nothing is appended (C129_silent, C129_reports_refuted), and so for every form reached through UTF-16 (C129_via_silent; otherwise the second step decides, C129_via). REFUTED: between two ANSI strings the bytes are copied whatever the code pages are (C129_pages_refuted), from a view even into an empty string (C129_view_refuted). Proved: C129_converts_partial when the system converts the text within as many characters as it has bytes, C129_pages_partial for equal code pages and for an empty destination, which then takes over the code page of the source; C129_room: the text is appended in a buffer that has room for both.
* **C130** (partial): REFUTED: an observer is tested once and then used as a raw pointer: another thread can destroy the object before the call and during it, although the header calls this overload safe (C130_observer_refuted). REFUTED: the owning overloads do not test for null (C130_null_refuted). Proved: C130_safe_partial for owning and weak pointers that are not null, C130_observer_partial if nobody gives the object up during a call, C130_throws, C130_kept, C130_not_kept, C130_once.
* **C131** (partial): Proved: for every frequency and every delay that is not negative and whose end is a 64-bit counter value, the task is accepted, at most the delay (and half a counter tick) is asked of the system, and when the task runs at most one millisecond and one tick are missing (C131_delay_partial; above 10 MHz and off its multiples, the time between the clock readings may be missing once more); delays up to 49.7 days do happen (C131_happens); zero and negative delays run at once from 10 MHz (C131_at_once). REFUTED in four ways: the remaining time is cut to whole milliseconds and less than one counts as none, so tasks run up to 1 ms early and a delay of 0.9999 ms is none (C131_early_refuted); every delay of 2^32-1 ms or more is clipped to UINT32_MAX, which CreateTimerQueueTimer takes as INFINITE, so the task never runs (C131_never_refuted, TaskRunnerDispatchImpl.cpp 103); TimeSpan::GetMax() wraps round on counters of 20 MHz and more and runs at once (C131_wrap_refuted); a negative delay on a counter below 10 MHz never runs (C131_negative_refuted; GetTimeout guards against this, PostDelayTask does not).
* **C132** (partial): Proved: n periods take at least n times the interval less 1 ms and one counter tick each, for counters below 10 MHz or at a multiple of it (C132_spacing_partial, induction over the periods); the first run likewise (C132_first_partial); the conditions for setting the timer again (C132_stops); intervals under 1 ms give a null pointer (C132_null). For every frequency the time from the start of a callback to the setting of the timer can be missing once more, but no more (C132_any_partial); REFUTED there, e.g. at 19.2 MHz: both conversions use the whole quotient of f and 10^7 (MathUtils.h 92-119), whose errors cancel only when no time has passed in between, and a timer of 1 s whose callback takes 0.5 s fires 0.54 s after its last start (C132_uneven_refuted). REFUTED: the next expiry counts from the start of the callback, so a late run moves all later ones (C132_drift_refuted).
* **C133** (partial): Proved: WaitTask rounds down to whole milliseconds below 49.7 days, does not wait for negative time-outs and waits without limit for GetMax (C133_wait_task, C133_wait_task_ends); WaitForObjectAsync polls when there is no time to wait (C133_poll), otherwise times out at most 1 ms and one counter tick early (C133_not_early_partial), and registers a wait without limit from 49.7 days on (C133_forever, counters up to 100 GHz). REFUTED: a finite time-out of 2^32-1 ms or more is no time-out (C133_wait_task_refuted, TaskRunner.cpp 26 and 59: UINT32_MAX is INFINITE). Finding by reading: WaitForObjectAsync ignores the answer of SetWaitInternal (233, 237), so a wait on a runner that refuses it leaves the task pending unless the refusal settled it.
* **C134** (partial): Proved for chains of any length in which no task is cancelled (C134_chain_partial, induction over the chain); the first fitting handler wins (C134_first_handler), an exception without handler comes out unchanged with its own code (C134_unhandled); a cancelled task caught directly is an OperationCanceledException (C134_cancelled_direct). REFUTED with cancelled tasks: a Then in between turns Canceled into an error without an exception, so what comes out is a plain Exception(ERROR_CANCELLED) and ThenErrorIf<OperationCanceledException> after it is not called (C134_cancelled_refuted, Task.h 490); the same for a cancelled task that a handler returns (C134_inner_cancelled_refuted, Task.h 637).
* **C135** (partial): Proved for all interleavings: C135_current, C135_queued (tasks from a queue: whatever users release), C135_send_inline, C135_send_other, C135_typed. REFUTED: sequenced and parallel runners reset the pointer before they drop the remaining tasks, so callbacks called by CleanupTaskQueue have no current runner, unlike those of thread runners (C135_dropped_refuted; SequencedTaskRunnerImpl.cpp 110-117, 153); a callback that SendTask calls directly on a bound thread outside its loop has no current runner once it has released the last reference (C135_released_refuted).
* **C136** (partial): Proved for all interleavings: C136_refused, C136_bound (threads outside the pool), C136_one_thread, C136_loop. REFUTED on pool threads: a callback called while a runner drops its tasks can bind the thread, and the next job there resets the pointer to null instead of what it was, so the living bound runner is no longer the current one (C136_pool_refuted). Findings by reading: the window of a proxy runner is never destroyed (ThreadTaskRunnerProxyImpl.h 66-74); GetThreadId of a new thread runner waits 100 ms at most and may give 0 (ThreadTaskRunnerImpl.cpp 63-71).
* **C137** (partial): Proved if the pool may have a thread for each runner: every run ends (C137_ends, an explicit bound on the number of steps) and a run that cannot go on has called every task once (C137_finishes_partial). Missing: smaller pools and other patterns of SendTask. REFUTED there: two runners that send to each other wait for ever (C137_cycle_refuted); if as many runners as the pool's limit have a task that sends to one further runner, all threads wait for a task that no thread is left to run (C137_starved_refuted; nothing raises the limit of 500 for a waiting thread); thread runners hold a thread of the same pool for their whole life, so 500 idle ones stop every sequenced and parallel runner (C137_held_refuted, TaskRunner.cpp 400-410).
* **C138** (partial): Proved for all functions if callbacks do not throw and the guard is not copied (C138_nested_partial, C138_scope); with n copies every callback is called n + 1 times (C138_calls). REFUTED: where the compiler copies (allowed before C++17; AutoCleanup.h 45-49 keeps the copy constructor then, and always where Microsoft's macro _HAS_CXX17 is not known, so that an explicit copy compiles there) the callback is first called before the scope begins (C138_copied_refuted); a callback that throws ends the process even inside try and outer guards are not left (C138_throws_refuted: the destructor is noexcept). By reading: a callback given as an lvalue is kept by reference (Lambda is deduced as F&).
* **C139** (partial): Proved: C139_exclusive and C139_shared for all functions and interleavings; C139_finishes_partial and C139_ends: with locks taken in one order (a CriticalSection also again by its owner) all threads end and hold nothing. Missing: other orders. REFUTED for them: opposite orders of two locks (C139_order_refuted), AutoLock of an SRWLock inside a guard of the same lock (C139_again_refuted). By reading: outside Windows SRWLock's members are declared but defined nowhere (SRWLock.h 64-92, SRWLock.cpp is empty), so nothing that uses it links there.
* **C140** (partial): Proved: C140_safe, C140_truth, C140_stays and C140_source for all runs. REFUTED for handlers: the tokens of FromPtr inherit Register that answers false (CancellationToken.h 38-42), so a handler is refused although the token is not cancelled yet, and is not called later (C140_register_refuted).
* **C141** (partial): Proved for objects and sources (C141_freed_partial). REFUTED for tokens made by FromPtr (C141_leak_refuted): RefValue starts with one reference and RefPtr's constructor takes a second one (CancellationToken.h 78, 101, 124; Create at 198 uses RefPtr::FromPtr, which does not), so that no such token is ever destroyed, and the memory of every object it watches is never given back either. By reading: these objects come from operator new, but ReleaseWeak gives them to free (RefPtr.h 83).
* **C142** (partial): Proved: on Windows all calls agree on one non-zero count that some call has made (C142_agree); the count is right on machines with one package (C142_count_partial). REFUTED for several packages: only the first record of the buffer is read, so the processors of the other sockets are missing (C142_count_refuted). Elsewhere the calls agree if get_nprocs does not change (C142_linux_partial); REFUTED if it does: the variable is written without an exchange (C142_linux_refuted).
* **C143** (partial): Proved: C143_text, C143_safe, C143_ends, C143_steady. REFUTED for debug builds: the places needed are passed to UnlockBuffer as the new length, whose assertion (String.h 325) fails when the directory has become longer between two calls (C143_assert_refuted).
* **C144** (partial): Proved: C144_set, C144_algebra, C144_undo, C144_cancel; HasFlags says whether there is a common flag, which for one flag is what is asked (C144_has_partial; all calls in the library ask for one flag). REFUTED for several flags and for none: HasFlags(Sequenced, FixedThread|Sequenced) is true and HasFlags(x, None) is false (C144_has_refuted).
* **C145** (partial): Proved: C145_inside and, when the compiler subtracts addresses, C145_same. REFUTED by the letter of the standard (C145_null_refuted): GetPathRoot returns the default view with a null pointer for a path without a root, RemoveFileSpec returns it for a name without separator, and the string form subtracts the string's address from null; the result is right only because the two wrong numbers sum up to the length modulo 2^64. C145_standard_partial says for exactly which paths this happens, and that everything else is defined.
* **C146** (partial): Proved for Visual C++ (C146_append_partial, C146_format_partial), for formats without conversions everywhere (C146_plain_partial), and for arguments that cannot be converted (C146_error). REFUTED in four ways. Where va_list is an array (Linux) the list used up by GetStringFormatLength is used again by FormatStringV (String.h 61, 69, no va_copy): every format with a conversion reads arguments that are not there (C146_args_refuted) or prints the wrong ones (C146_spare_refuted). An empty result in a string without a buffer is written, as a terminator, into the const object of GetEmtpyStringData, which lies in read-only memory (C146_empty_refuted). The object's own text as an argument is read after its buffer was given back or while it is overwritten (C146_self_refuted); Format empties it before it is printed (C146_format_self_refuted).
* **C147** (partial): C147_means: every text that has a meaning (relation utf8) is converted to it; C147_marked_partial: every byte sequence has one unless it contains a forbidden form or a first byte whose character cannot be complete before the end, with other text behind it. REFUTED for these. Too long forms are accepted: each ASCII character, NUL and '/' included, has a second form in two bytes (C147_overlong_refuted). Surrogates in three bytes are copied (C147_surrogate_refuted) and numbers behind U+10FFFF become two low surrogates (C147_number_refuted): the result is no UTF-16. A first byte near the end swallows up to two characters behind it (the loop breaks on the length before it looks at the bytes, lines 398-399, 422-423, 439-440): "A\xF0hi" becomes "A?" (C147_tail_refuted).
* **C148** (partial): Proved for every UTF-16 text in which no low surrogate stands directly behind a low surrogate or U+E000 (C148_units_partial, C148_well_formed_partial), and for numbers that are no code points from UTF-32 to UTF-16 (C148_u32_u16_marks). REFUTED otherwise: any unit from 0xD800 to 0xE000 is kept as the first half of a pair, so two low surrogates become four bytes that are no UTF-8 and a number that is no code point (C148_low_refuted); UTF-32 to UTF-8 writes surrogates (C148_u32_refuted) and numbers behind U+10FFFF (C148_number_refuted), UTF-32 to UTF-16 copies surrogates.
* **C149** (partial): C149_once: at most once, always. C149_called_partial: at rest exactly once, unless the runner of the caller refused or dropped it, which cannot happen without a runner. C149_where, C149_ends. REFUTED: if the runner ends before the operation the function has returned ERROR_SUCCESS and the callback is never called (C149_called_refuted). The result is ERROR_SUCCESS in every execution (C149_result): the branches for cancelled and failed tasks are dead, no failure is ever returned.
* **C150** (partial): Successes are reported as they went (C150_success), connections always (C150_connect_partial), and C150_transfer_partial says exactly what a transfer reports. REFUTED otherwise. A read or write that fails at once is reported to the callback as a success of 0 bytes, whatever the error, for the switch passes ERROR_SUCCESS and failures are tasks that completed (C150_failure_refuted). One that is pending and then fails is reported as success or with its error, depending on whether it ended before the status was read (C150_race_refuted). One that moved bytes and ended with an error such as ERROR_MORE_DATA is a success in every execution (C150_bytes_refuted). If WaitOnAddress returns early the status can be ERROR_IO_PENDING (C150_early_refuted).
* **C151** (proved): C151_32 and C151_64 for the single call of either form; C151_no_lost_update and C151_lock_free for the competing loops. The 64-bit and 128-bit exchanges are trusted to be atomic and to do what their documentation says; the alignment needed for 128 bits is not modelled. Nothing in the repository calls this function, so the loop is the one its interface suggests.
