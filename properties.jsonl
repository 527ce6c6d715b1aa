{"id": "C01", "title": "Copy-on-write Array objects behave as independent values", "statement": "Take any number of Array objects with the default (copy-on-write) allocation policy. After any sequence of copy construction/assignment, move, Clear, Resize, Add, Insert, Remove, SetItem, SetArray and destruction, every Array reads back exactly the elements that the same sequence would leave in an independent list; no operation on one Array changes what another one reads, although they may share one buffer.", "quantifier": "every finite sequence of operations over any number of Array objects, all element values, all sizes", "why_tests_cant": "Sharing patterns (who shares with whom, in which order they detach) grow without bound with the history; a test fixes one history.", "anchors": ["include/YY/Base/Containers/Array.h: AllocPolicy<_Type, AllocPolicyImpl::COW>::{Clear,SetArray,ReAlloc,LockInternalData,LockInternalDataIncrement,Attach,Detach}", "include/YY/Base/Containers/Array.h: Array::{Resize,SetItem,Add,Insert,Remove,operator=}"]}
{"id": "C02", "title": "Copy-on-write buffers are released exactly once, and only by the last holder", "statement": "In every such history a heap buffer stays allocated while at least one Array refers to it, is freed when the last one drops it, is never freed twice and never read after being freed; when all Arrays are destroyed nothing is left allocated.", "quantifier": "every finite sequence of operations over any number of Array objects", "why_tests_cant": "Leaks, double frees and dangling reads depend on the whole history of sharing, of which tests sample a few.", "anchors": ["include/YY/Base/Containers/Array.h: InternalData::{AddRef,Release,Lock,Unlock}, Alloc, Free, Clone, ReAlloc"]}
{"id": "C03", "title": "Array objects sharing one buffer can be written and destroyed concurrently", "statement": "Threads that each own their own Array object, all sharing one buffer, may write to, copy or destroy their own object at any time: each thread reads the value it wrote or inherited, no thread reads freed memory, and the shared buffer is freed exactly once.", "quantifier": "any number of threads, every interleaving of the atomic steps (read the share counter, copy, decrement, free) of write, copy and destroy", "why_tests_cant": "A stress test only exercises the schedules that the machine happens to produce.", "anchors": ["include/YY/Base/Containers/Array.h: InternalData::{AddRef,Release,IsShared}, LockInternalData, Clone (header comment: concurrent read/write of shared arrays is safe)"]}
{"id": "C04", "title": "Small-object-optimised Array behaves as a list across the inline/heap transition", "statement": "An Array with the small-object policy gives the same contents, sizes and error codes as a list under any sequence of Add, Insert, Remove, Resize, SetItem, SetArray, Clear and move, no matter how often its storage moves between the inline buffer and the heap; a heap block is never leaked, and writes never go beyond the storage that is currently in use.", "quantifier": "every finite sequence of operations, every element list, every inline capacity", "why_tests_cant": "The boundary between inline and heap storage can be crossed at any point of any history.", "anchors": ["include/YY/Base/Containers/Array.h: AllocPolicy<_Type, AllocPolicyImpl::SOO>::{Realloc,Clear,SetArray,LockInternalData,LockInternalDataIncrement}"]}
{"id": "C05", "title": "Out-of-range Array accesses are rejected without effect", "statement": "SetItem and Insert at an index outside the array report E_BOUNDS and leave the array unchanged; Remove clamps its range to the array; GetItemPtr returns null exactly for out-of-range indices; GetItemIndex returns the index of a pointer exactly when it points into the array.", "quantifier": "every array, every index and count up to 2^64-1", "why_tests_cant": "Index arithmetic has 2^64 inputs per argument; tests pick a few.", "anchors": ["include/YY/Base/Containers/Array.h: Array::{GetItemPtr,SetItem,GetItemIndex,Insert,Remove,operator[]}"]}
{"id": "C06", "title": "Moving elements inside a buffer preserves their values for every element type", "statement": "Insert in the middle and Remove keep all other elements, in order, whether the element type is trivially copyable (memmove) or has its own move constructor (element-by-element move inside the same buffer).", "quantifier": "every array content, every insertion/removal position and count, both element categories", "why_tests_cant": "The result depends on the direction of overlap of source and destination; tests with int elements only reach the memmove branch.", "anchors": ["include/YY/Base/Containers/ConstructorPolicy.h: ConstructorPolicy::Move", "include/YY/Base/Containers/Array.h: Array::{Insert,Remove}"]}
{"id": "C07", "title": "A locked Array buffer stays put until it is unlocked", "statement": "Between LockBuffer… and the matching UnlockBuffer the data pointer of the array never changes and the buffer is not shared with any copy made meanwhile; n locks need n unlocks; unlocking more often than locking is reported and has no effect.", "quantifier": "every sequence of lock, unlock, copy and read operations", "why_tests_cant": "Nesting depth and interleaving with copies are unbounded.", "anchors": ["include/YY/Base/Containers/Array.h: LockBufferAndSetSize, UnlockBuffer, InternalData::{Lock,Unlock,IsLocked,GetLockedCount}"]}
{"id": "C08", "title": "A rejected Array assignment leaves both sides intact", "statement": "Assigning (by copy or by move) to an Array whose buffer is locked is refused; after the refusal the source still has its contents and no reference is leaked.", "quantifier": "every pair of arrays, every lock state", "why_tests_cant": "Error paths after a failed check are rarely covered and leaks are not observable in a unit test.", "anchors": ["include/YY/Base/Containers/Array.h: SetArray(const&), SetArray(&&), Attach"]}
{"id": "C09", "title": "DoublyLinkedList operations keep one consistent chain", "statement": "Starting from empty lists, after any sequence of PushBack, PopBack, PopFront, Insert, Remove, Flush and splicing, following pNext from the first entry gives exactly the expected sequence, following pPrior from the last gives its reverse, and entries that left a list carry no links into it.", "quantifier": "every sequence of operations over any set of nodes and lists", "why_tests_cant": "Pointer surgery has to be right for head, tail, middle and singleton cases in every combination of histories.", "anchors": ["include/YY/Base/Containers/DoublyLinkedList.h: PushBack, PopBack, PopFront, Insert, Remove, Flush"]}
{"id": "C10", "title": "SingleLinkedList is a first-in first-out queue under splicing", "statement": "Under any sequence of Push(node), Push(list&&) and Pop the popped nodes come out in the order of insertion and splicing appends the whole other list and empties it.", "quantifier": "every sequence of operations over any set of nodes and lists", "why_tests_cant": "Histories are unbounded; the tail pointer can go stale only in particular orders.", "anchors": ["include/YY/Base/Containers/SingleLinkedList.h: Push, Pop, Flush, IsEmpty"]}
{"id": "C11", "title": "BitMap represents exactly the set of indices that were set", "statement": "After any sequence of SetItem calls with in-range indices, GetItem(i) tells whether the last SetItem on i was true, SetItem returns the previous value, GetSize is the number of set bits, and Find(i) returns the smallest set index >= i, or -1 when there is none.", "quantifier": "every bitmap size, every sequence of in-range updates, every query index", "why_tests_cant": "2^n states; word boundaries and the scan across empty words need a general argument.", "anchors": ["include/YY/Base/Containers/BitMap.h: BitMap::{SetItem,GetItem,Find,GetSize,IsEmpty}, BitFind32, BitFind64, BitGet"]}
{"id": "C12", "title": "HashSet holds each key at most once and loses none", "statement": "After any sequence of Insert and Remove, Insert reports S_FALSE exactly when the key is already present, Remove removes exactly the given key, and Pop removes one present key and returns it, and returns null only when the set is empty (for non-null keys); every node allocated is freed.", "quantifier": "every sequence of operations, every key distribution over the buckets", "why_tests_cant": "Collisions within a bucket and removal at head/middle of a chain appear only for particular key sets.", "anchors": ["include/YY/Base/Containers/HashSet.h: HashSet::{Insert,Remove,Pop}"]}
{"id": "C13", "title": "Optional constructs and destroys its value in balance", "statement": "Under any sequence of construction, copy, move, Emplace, Reset and assignment over any number of Optional objects, each contained value is destroyed exactly once, HasValue tells whether one is present, and GetValue returns the value last stored.", "quantifier": "every sequence of operations over any number of Optional objects", "why_tests_cant": "Constructor/destructor balance depends on the complete history.", "anchors": ["include/YY/Base/Containers/Optional.h: Optional::{Optional,Reset,Emplace,operator=,~Optional}"]}
{"id": "C14", "title": "IndexOf finds the first occurrence", "statement": "For every span and every non-empty needle, Span::IndexOf (value, sub-span, any-of, with or without start/count) returns the smallest index inside the searched range at which the needle occurs completely inside that range, and the invalid index exactly when there is none. An empty needle is never found.", "quantifier": "every span, every needle, every start and count (64-bit)", "why_tests_cant": "Unbounded data; off-by-one errors show only for particular lengths.", "anchors": ["include/YY/Base/Containers/Span.h: IndexOf, IndexOfAny", "include/YY/Base/Strings/StringView.h: IndexOf, IndexOfAny"]}
{"id": "C15", "title": "LastIndexOf finds the last occurrence", "statement": "For every span and non-empty needle, LastIndexOf and LastIndexOfAny return the greatest index inside the searched range at which the needle occurs completely inside that range, and the invalid index exactly when there is none.", "quantifier": "every span, every needle, every start and count (64-bit)", "why_tests_cant": "Unbounded data; reverse scanning is a classical source of off-by-one errors.", "anchors": ["include/YY/Base/Containers/Span.h: LastIndexOf, LastIndexOfAny"]}
{"id": "C16", "title": "Slices and sub-ranges never leave the original range", "statement": "Slice(removeStart, removeEnd), Subspan(start) and Subspan(start, count) (and Substring on strings) return the elements of the requested range that lie inside the original one, and never give access to anything outside it, for every 64-bit argument.", "quantifier": "every span and every pair of 64-bit arguments", "why_tests_cant": "The dangerous inputs are the ones whose sum wraps modulo 2^64.", "anchors": ["include/YY/Base/Containers/Span.h: Slice, Subspan", "include/YY/Base/Strings/StringView.h: Slice, Substring", "include/YY/Base/Strings/String.h: Slice, Substring"]}
{"id": "C17", "title": "Trim removes exactly the leading/trailing run", "statement": "TrimStart, TrimEnd and Trim remove the longest prefix/suffix consisting only of the given element(s) and nothing else.", "quantifier": "every span and every trim set", "why_tests_cant": "Unbounded data.", "anchors": ["include/YY/Base/Containers/Span.h: TrimStart, TrimEnd, Trim", "include/YY/Base/Strings/StringView.h: TrimStart, TrimEnd, Trim"]}
{"id": "C18", "title": "Repeated SplitAndTakeFirst enumerates the fields of the text", "statement": "Calling SplitAndTakeFirst repeatedly with the returned next index yields the maximal separator-free pieces of the input in order, terminates, and joining the pieces with separators gives back the input (up to a trailing separator).", "quantifier": "every input text, every separator", "why_tests_cant": "The loop runs a data dependent number of times.", "anchors": ["include/YY/Base/Containers/Span.h: SplitAndTakeFirst", "include/YY/Base/Strings/StringView.h: SplitAndTakeFirst"]}
{"id": "C19", "title": "Span equality and inequality are complementary", "statement": "operator== holds exactly when both spans have the same length and equal elements at every position, and operator!= is its negation.", "quantifier": "every pair of spans", "why_tests_cant": "A test compares a few literals; the complement must hold for all pairs.", "anchors": ["include/YY/Base/Containers/Span.h: operator==, operator!="]}
{"id": "C20", "title": "StartsWith/EndsWith/Contains agree with the mathematical prefix, suffix and membership relations", "statement": "StartsWith(x) holds exactly when the span is x followed by something, EndsWith(x) when it is something followed by x, Contains when the element occurs.", "quantifier": "every pair of spans", "why_tests_cant": "Unbounded data.", "anchors": ["include/YY/Base/Containers/Span.h: StartsWith, EndsWith, Contains, ContainsAny"]}
{"id": "C21", "title": "Copy-on-write String objects behave as independent values", "statement": "After any sequence of copies, SetString, AppendString, AppendChar, Remove, SetItem, Clear and destruction on any number of String objects, every String reads back the text the same sequence leaves in an independent value; no operation on one changes another, and buffers are freed exactly once.", "quantifier": "every finite history over any number of String objects", "why_tests_cant": "Sharing histories are unbounded; the path that detaches a shared buffer differs per operation.", "anchors": ["include/YY/Base/Strings/String.h: StringBase::{SetString,AppendString,Remove,SetItem,Clear,LockBuffer,UnlockBuffer,CloneStringData,ReallocStringData,Attach,Detach}"]}
{"id": "C22", "title": "String::TrimEnd removes exactly the trailing run", "statement": "TrimEnd on a String leaves exactly the text without its trailing run of the given character, as it does on a StringView.", "quantifier": "every text, every character", "why_tests_cant": "Unbounded data.", "anchors": ["include/YY/Base/Strings/String.h: StringBase::{TrimEnd,TrimStart,Trim}"]}
{"id": "C23", "title": "A String is always terminated and never overruns its capacity", "statement": "After every operation the text is followed by a terminating zero inside the allocated buffer, the length never exceeds the capacity, and no write happens beyond the allocation, however the string grew.", "quantifier": "every history of operations, all lengths", "why_tests_cant": "The growth arithmetic (rounding to 16, factor 1.5) interacts with every length.", "anchors": ["include/YY/Base/Strings/String.h: AllocStringData, ReallocStringData, LockBuffer, UnlockBuffer, AppendString"]}
{"id": "C24", "title": "String comparison is a total order that only looks at the given characters", "statement": "Comparing two counted strings depends only on the counted characters, is 0 exactly for equal texts, is antisymmetric and transitive.", "quantifier": "every pair/triple of strings, every character type", "why_tests_cant": "A total order is a statement about all triples; reading one element too far is invisible on most inputs.", "anchors": ["include/YY/Base/tchar.h: StringCompare", "include/YY/Base/Strings/StringView.h: Compare"]}
{"id": "C25", "title": "ASCII case-insensitive comparison is an equivalence that ignores exactly ASCII case", "statement": "CompareI returns 0 exactly when the two texts are equal after mapping A-Z to a-z, and it orders texts as the upper-cased texts are ordered.", "quantifier": "every pair of strings", "why_tests_cant": "All pairs of texts.", "anchors": ["include/YY/Base/tchar.h: CharUpperAsASCII, StringCompareIgnoreAsASCII", "include/YY/Base/Strings/StringView.h: CompareI"]}
{"id": "C26", "title": "UTF-8 to UTF-16 transcoding is right for every Unicode text", "statement": "Transforming the UTF-8 encoding of any sequence of Unicode scalar values to UTF-16 (either byte order) appends exactly its UTF-16 encoding.", "quantifier": "every sequence of Unicode scalar values", "why_tests_cant": "1.1 million scalar values and unbounded sequences of them.", "anchors": ["src/YY/Base/Strings/StringTransform.cpp: Transform(u8StringView, u16StringLE/BE)"]}
{"id": "C27", "title": "UTF-16 to UTF-8 transcoding is right for every Unicode text", "statement": "Transforming the UTF-16 encoding (either byte order) of any sequence of Unicode scalar values to UTF-8 appends exactly its UTF-8 encoding.", "quantifier": "every sequence of Unicode scalar values", "why_tests_cant": "1.1 million scalar values and unbounded sequences of them.", "anchors": ["src/YY/Base/Strings/StringTransform.cpp: Transform(u16StringViewLE/BE, u8String)"]}
{"id": "C28", "title": "UTF-32 to UTF-16 transcoding is right for every Unicode text", "statement": "Transforming any sequence of Unicode scalar values in UTF-32 (either byte order) to UTF-16 (either byte order) appends exactly its UTF-16 encoding.", "quantifier": "every sequence of Unicode scalar values, all four byte-order combinations", "why_tests_cant": "Four near-identical functions; a test of one says nothing about the others.", "anchors": ["src/YY/Base/Strings/StringTransform.cpp: Transform(u32StringViewLE/BE, u16StringLE/BE)"]}
{"id": "C29", "title": "UTF-8 and UTF-32 transcodings are mutually inverse on Unicode text", "statement": "UTF-32 to UTF-8 yields the standard UTF-8 encoding for every sequence of scalar values, and UTF-8 to UTF-32 decodes it back to the same sequence.", "quantifier": "every sequence of Unicode scalar values, both byte orders", "why_tests_cant": "Round trips over unbounded texts.", "anchors": ["src/YY/Base/Strings/StringTransform.cpp: Transform(u32StringView*, u8String), Transform(u8StringView, u32String*)"]}
{"id": "C30", "title": "Transcoding malformed input is total, bounded and never overruns the destination", "statement": "For arbitrary (also malformed) input every transcoder terminates, appends only to the end of the destination, and never writes more units than it reserved.", "quantifier": "every sequence of input units", "why_tests_cant": "Malformed inputs are unbounded in number; buffer overruns show only for particular tails.", "anchors": ["src/YY/Base/Strings/StringTransform.cpp: all Transform overloads (LockBuffer reservations)"]}
{"id": "C31", "title": "The portable 64x64-bit multiplication gives the exact 128-bit product", "statement": "_umul128(a,b) returns the low 64 bits and stores the high 64 bits of a*b.", "quantifier": "all 2^128 operand pairs", "why_tests_cant": "2^128 inputs.", "anchors": ["include/YY/Base/Utils/MathUtils.h: _umul128"]}
{"id": "C32", "title": "The portable 128/64-bit division gives the exact quotient and remainder", "statement": "_udiv128(hi,lo,d) returns the quotient and remainder of (hi*2^64+lo)/d whenever the quotient fits 64 bits.", "quantifier": "all operands with hi < d", "why_tests_cant": "2^192 inputs; errors occur for large divisors only.", "anchors": ["include/YY/Base/Utils/MathUtils.h: _udiv128"]}
{"id": "C33", "title": "UMulDiv64 rounds a*b/c to nearest", "statement": "UMulDiv64(a,b,c) equals a*b/c rounded half up whenever the result fits in 64 bits.", "quantifier": "all 64-bit a, b, c with c>0 and representable result", "why_tests_cant": "2^192 inputs.", "anchors": ["include/YY/Base/Utils/MathUtils.h: UMulDiv64"]}
{"id": "C34", "title": "UMulDiv64Fast/MulDiv64Fast agree with the exact product quotient where they promise to", "statement": "When the numerator is a multiple of the denominator or vice versa, the fast variants return a*num/den rounded half up (half away from zero for the signed variant) whenever that result fits and the quotient den/num is at most half the range of the type.", "quantifier": "all 64-bit operands that meet the documented condition", "why_tests_cant": "2^192 inputs.", "anchors": ["include/YY/Base/Utils/MathUtils.h: UMulDiv64Fast, MulDiv64Fast"]}
{"id": "C35", "title": "Unix time conversion round-trips", "statement": "DataTime::FromUnixTimestamp(t).ToUnixTimestamp() = t for every representable non-negative t, ToUnixTimestamp is monotone, and out-of-range times give -1.", "quantifier": "all 64-bit timestamps", "why_tests_cant": "2^64 inputs including wrap-around.", "anchors": ["include/YY/Base/Time/DataTime.h: FromUnixTimestamp, ToUnixTimestamp, operator+=, operator-"]}
{"id": "C36", "title": "TimeSpan units and ordering are exact", "statement": "From<Unit>(n).GetTotal<Unit>() = n while the value is representable, addition and subtraction are exact while representable, and the six comparison operators are consistent with the order of tick counts.", "quantifier": "all 64-bit tick counts", "why_tests_cant": "2^64 inputs and pairs of them.", "anchors": ["include/YY/Base/Time/TimeSpan.h: From*, GetTotal*, operators"]}
{"id": "C37", "title": "TickCount arithmetic with a TimeSpan is invertible and ordered", "statement": "For tick counts in range, (t + d) - t = d up to the resolution of the performance counter, t + d >= t for d >= 0 and t + d <= t for d <= 0.", "quantifier": "all tick counts, spans (also negative) and counter frequencies", "why_tests_cant": "Depends on the counter frequency of the machine running the test.", "anchors": ["include/YY/Base/Time/TickCount.h: operator+=, operator-=, operator-, FromMilliseconds, GetTotalMilliseconds"]}
{"id": "C38", "title": "Version comparison is the lexicographic order of (major, minor, build, revision)", "statement": "All six comparison operators of Version agree with lexicographic comparison of the four 16-bit parts, whichever language version is used to compile.", "quantifier": "all pairs of versions", "why_tests_cant": "2^128 pairs.", "anchors": ["include/YY/Base/Utils/Version.h: Version, operators"]}
{"id": "C39", "title": "SafeCast succeeds exactly on representable values", "statement": "SafeCast returns the same number when it is representable in the target type and reports an error otherwise.", "quantifier": "all 2^32 inputs per overload", "why_tests_cant": "Boundary values are easy to miss.", "anchors": ["include/YY/Base/SafeCast.h: SafeCast"]}
{"id": "C40", "title": "Reference counted objects are destroyed once, freed once, and weak pointers never resurrect them", "statement": "With any number of RefPtr and WeakPtr holders in any number of threads: the destructor runs exactly once, when the last strong holder leaves; the memory is freed exactly once, after the last strong and weak holder left; WeakPtr::Get returns a strong pointer only to an object whose destructor has not started, and null afterwards.", "quantifier": "any number of threads and holders, every interleaving of the atomic steps of AddRef, Release, AddWeakRef, ReleaseWeak and the compare-exchange loop of TryAddRef", "why_tests_cant": "Races between the last Release and a weak lock are extremely rare in tests.", "anchors": ["include/YY/Base/Memory/RefPtr.h: RefValue::{AddRef,Release,AddWeakRef,ReleaseWeak,TryAddRef}", "include/YY/Base/Memory/WeakPtr.h: WeakPtr::{Get,Reset,operator=}"]}
{"id": "C41", "title": "RefPtr copies, moves and assignments keep the count equal to the number of holders", "statement": "After any sequence of Create, FromPtr, copy, move, Attach, Detach, Reset and (self-)assignment, the strong count of each object equals the number of RefPtr objects and detached raw owners holding it.", "quantifier": "every sequence of operations over any number of RefPtr variables and objects", "why_tests_cant": "Self-assignment and aliasing combinations are unbounded.", "anchors": ["include/YY/Base/Memory/RefPtr.h: RefPtr::{RefPtr,FromPtr,Clone,Attach,Detach,Reset,operator=}"]}
{"id": "C42", "title": "ObserverPtr gives the observed object while it lives and null afterwards", "statement": "Get() on an ObserverPtr that was set (by construction or assignment, from an object or from another ObserverPtr) to an object returns that object until it is destroyed and null afterwards.", "quantifier": "every sequence of creation, assignment, copy and destruction over any number of objects and observers", "why_tests_cant": "Dangling results only appear in particular assignment histories.", "anchors": ["include/YY/Base/Memory/ObserverPtr.h: ObserverPtr::{Get,operator=,Reset}, ObserverPtrFactory"]}
{"id": "C43", "title": "UniquePtr deletes each owned object exactly once", "statement": "After any sequence of construction, move, Reset, Attach, Detach and destruction every object handed to a UniquePtr is deleted exactly once unless it was detached, and no object is owned twice.", "quantifier": "every sequence of operations over any number of UniquePtr variables", "why_tests_cant": "History dependent.", "anchors": ["include/YY/Base/Memory/UniquePtr.h: UniquePtr::{Reset,Attach,Detach,operator=}"]}
{"id": "C44", "title": "Handle closes each owned handle exactly once", "statement": "After any sequence of construction, copy (duplicate), move, Attach, Detach, assignment and destruction every handle given to a Handle object is closed exactly once unless detached; copies own distinct handles.", "quantifier": "every sequence of operations, every outcome of the duplicate call", "why_tests_cant": "History dependent; a leaked or twice closed handle goes unnoticed in tests.", "anchors": ["include/YY/Base/Utils/Handle.h: Handle::{Attach,Detach,Clone,Release,operator=}"]}
{"id": "C45", "title": "CriticalSection gives mutual exclusion and is free again after unlocking", "statement": "A thread holds the lock from its first Lock until as many Unlock calls as Lock calls; no other thread acquires it in between, and afterwards another thread can acquire it.", "quantifier": "any number of threads, every interleaving, every nesting depth", "why_tests_cant": "All schedules and nesting depths.", "anchors": ["include/YY/Base/Sync/CriticalSection.h, src/YY/Base/Sync/CriticalSection.cpp: CriticalSection::{Lock,TryLock,Unlock}"]}
{"id": "C46", "title": "The lock-free single linked list loses and duplicates nothing with one consumer", "statement": "With any number of concurrently pushing threads and one thread that pops or flushes, every pushed entry is delivered at most once, nothing is lost, and entries of one producer come out in reverse order of their pushes between two consumer operations.", "quantifier": "any number of producers, every interleaving of the loads and compare-exchange steps", "why_tests_cant": "Lock-free races.", "anchors": ["include/YY/Base/Sync/InterlockedSingleLinkedList.h: Push, Pop, Flush"]}
{"id": "C47", "title": "The interlocked queue delivers every pushed element in order", "statement": "With one pushing and one popping thread, the sequence of popped elements is always a prefix of the sequence of pushed elements, for every block size.", "quantifier": "every interleaving of the memory accesses of one producer and one consumer, every block size", "why_tests_cant": "The window between checking for emptiness and following the link to the next block is a few instructions wide.", "anchors": ["include/YY/Base/Sync/InterlockedQueue.h: Push, Pop"]}
{"id": "C48", "title": "Interlocked bit operations change exactly the named bits and return the old state", "statement": "BitSet/BitReset return the previous value of the bit and change only that bit; BitOr/BitAnd/BitXor return the previous word and apply the mask atomically even under contention.", "quantifier": "all words, all bit indices, every interleaving of competing updates", "why_tests_cant": "Contention schedules and overload variants.", "anchors": ["include/YY/Base/Sync/Interlocked.h: BitSet, BitReset, BitOr, BitAnd, BitXor"]}
{"id": "C49", "title": "Each registered cancellation handler runs exactly once", "statement": "A handler successfully registered with a CancellationToken and not unregistered before cancellation is called exactly once; exactly one Cancel call returns true; Register after cancellation returns false and the handler is never called.", "quantifier": "any number of threads registering, unregistering and cancelling, every interleaving", "why_tests_cant": "All schedules.", "anchors": ["include/YY/Base/Threading/CancellationToken.h: CancellationTokenSource::{Register,Unregister,Cancel}", "include/YY/Base/Functional/Delegate.h: Delegate"]}
{"id": "C50", "title": "An asynchronous operation completes exactly once and notifies every handler once", "statement": "Among all competing Resolve, Cancel and SetErrorCode calls exactly one succeeds and fixes the status for ever; each completion handler that was accepted (and not removed) is called exactly once with that status, handlers that were refused are not called.", "quantifier": "any number of threads completing, adding and removing handlers, every interleaving", "why_tests_cant": "All schedules.", "anchors": ["include/YY/Base/Threading/Async.h: AsyncInfo::{BeginNotifyCompletedHandlers,NotifyCompletedHandlers,AddCompletedHandler,RemoveCompletedHandler,SetErrorCode,Cancel,Resolve}"]}
{"id": "C51", "title": "A continuation sees the error of its antecedent", "statement": "When an operation fails with an exception, every continuation attached before or after the failure observes that exception (or its error code).", "quantifier": "every interleaving of failing the operation and attaching a continuation", "why_tests_cant": "The window is a few instructions wide.", "anchors": ["include/YY/Base/Threading/Async.h: AsyncInfo::SetExceptionPtr, GetExceptionPtr, GetErrorCode", "include/YY/Base/Threading/Task.h: TaskContinueAsyncOperation::OnCompleted"]}
{"id": "C52", "title": "WhenAll completes after all tasks and reports the first error by position", "statement": "The task returned by WhenAll completes exactly once, only after every given task completed, successfully if all succeeded and otherwise with the error of the failing task with the lowest index.", "quantifier": "any number of tasks, every order of completion, every mixture of success, error and cancellation", "why_tests_cant": "n! completion orders.", "anchors": ["include/YY/Base/Threading/Task.h: Task::WhenAll"]}
{"id": "C53", "title": "WhenAny completes with a task that completed, and only once", "statement": "The task returned by WhenAny completes exactly once with the index of a task that had completed, and releases all internal references afterwards.", "quantifier": "any number of tasks, every order of completion, also tasks completed before the call", "why_tests_cant": "All orders of completion, and leaks are not visible to tests.", "anchors": ["include/YY/Base/Threading/Task.h: Task::WhenAny"]}
{"id": "C54", "title": "Timers never fire early", "statement": "A timer that was not cancelled is dispatched only when the clock has reached its expiry time.", "quantifier": "every history of setting timers and processing at arbitrary times, any number of timers, all distances (the four wheel levels)", "why_tests_cant": "The wheel reacts to times hours apart and wraps at several levels; tests wait for a few seconds.", "anchors": ["src/YY/Base/Threading/ThreadTaskRunnerTimerManger.h: SetTimerInternal, ProcessingTimerTasks, FetchTimingWheel1/2/3"]}
{"id": "C55", "title": "No timer is lost or duplicated", "statement": "Every timer handed to the timer manager is, at every moment, either pending or was dispatched exactly once.", "quantifier": "every history of setting timers and processing at arbitrary times", "why_tests_cant": "Cascading between wheel levels moves timers between lists at many places.", "anchors": ["src/YY/Base/Threading/ThreadTaskRunnerTimerManger.h: SetTimerInternal, ProcessingTimerTasks, FetchTimingWheel1/2/3"]}
{"id": "C56", "title": "Timers fire on time", "statement": "When timers are processed at time t, every pending timer whose expiry lies at or before the last 8 ms boundary before t is dispatched.", "quantifier": "every history of setting timers and processing at arbitrary times", "why_tests_cant": "Requires wheel positions reached only after minutes or hours, and particular gaps between two runs.", "anchors": ["src/YY/Base/Threading/ThreadTaskRunnerTimerManger.h: SetTimerInternal, ProcessingTimerTasks, FetchTimingWheel1/2/3"]}
{"id": "C57", "title": "The thread does not oversleep a timer", "statement": "The wake-up time computed for the thread is never later than the moment (rounded up to 8 ms) at which the earliest pending timer is due.", "quantifier": "every reachable state of the timer wheel", "why_tests_cant": "Needs timers more than an hour away.", "anchors": ["src/YY/Base/Threading/ThreadTaskRunnerTimerManger.h: GetMinimumWakeupTickCount"]}
{"id": "C58", "title": "A wait is completed only by its own handle", "statement": "A wait registered for a handle on a thread task runner is resolved only by a signal, timeout or failure of that handle, and registering, cancelling or completing one wait does not affect waits on other handles.", "quantifier": "every sequence of registering, cancelling, signalling and expiring waits", "why_tests_cant": "Slots are reused by swapping; the corruption needs particular sequences.", "anchors": ["src/YY/Base/Threading/ThreadTaskRunnerWaitManger.h: SetWaitInternal, RemoveWaitHandleByIndex, ProcessingWaitTasks", "src/YY/Base/Threading/ThreadTaskRunnerImpl.cpp: DeleteWaitInternal", "src/YY/Base/Threading/TaskRunner.cpp: WaitAsyncOperation::Cancel"]}
{"id": "C59", "title": "A sequenced task runner runs its tasks one at a time in posting order", "statement": "Tasks accepted by a SequencedTaskRunner never overlap, start in the order in which they were accepted and run at most once.", "quantifier": "any number of posting threads, every interleaving with the worker threads", "why_tests_cant": "All schedules.", "anchors": ["src/YY/Base/Threading/SequencedTaskRunnerImpl.cpp: PostTaskInternal, ExecuteTaskRunner, operator()"]}
{"id": "C60", "title": "Every task accepted by a sequenced task runner is eventually run", "statement": "When PostTask reports success and the runner is neither interrupted nor released, the task is eventually executed: whenever tasks are queued, a worker is running or scheduled.", "quantifier": "every interleaving of posting threads and workers", "why_tests_cant": "A lost wake-up needs an exact interleaving of a few instructions.", "anchors": ["src/YY/Base/Threading/SequencedTaskRunnerImpl.cpp: PostTaskInternal, ExecuteTaskRunner"]}
{"id": "C61", "title": "A parallel task runner never runs more workers than its limit", "statement": "At most uParallelMaximum tasks of a ParallelTaskRunner run at the same time and each accepted task runs at most once.", "quantifier": "any number of posting threads, every interleaving, every limit", "why_tests_cant": "All schedules.", "anchors": ["src/YY/Base/Threading/ParallelTaskRunnerImpl.hpp: PostTaskInternal, ExecuteTaskRunner, SubtractWakeupOnce"]}
{"id": "C62", "title": "A task runs or is cancelled, and its result is set once", "statement": "The result code of a task entry is written exactly once; Cancel returns true exactly once; a task cancelled before it started is not run.", "quantifier": "every interleaving of Cancel, RunTask and Wakeup", "why_tests_cant": "All schedules.", "anchors": ["src/YY/Base/Threading/TaskRunner.cpp: TaskEntry::{Cancel,RunTask,Wakeup}"]}
{"id": "C63", "title": "SendTask does not touch the caller's stack after returning", "statement": "After SendTask returned, no thread accesses the task entry that lived on its stack.", "quantifier": "every interleaving of the sending thread and the executing worker", "why_tests_cant": "Use-after-return races are silent.", "anchors": ["src/YY/Base/Threading/TaskRunner.cpp: TaskRunner::SendTask, TaskEntry::Wakeup", "src/YY/Base/Threading/SequencedTaskRunnerImpl.cpp: ExecuteTaskRunner"]}
{"id": "C64", "title": "The root of a path is a stable prefix", "statement": "GetPathRoot returns a prefix of the path, and taking the root of a root gives the same root; a path is rooted exactly when the root is not empty.", "quantifier": "every character sequence", "why_tests_cant": "Unbounded set of malformed and odd paths.", "anchors": ["src/YY/Base/IO/Path.cpp: GetPathRoot, IsPathRooted, TryParseUncPath, TryParseVolumePath"]}
{"id": "C65", "title": "RemoveFileSpec walks up to the root and stops", "statement": "RemoveFileSpec leaves a prefix of the path that still contains the root; it returns true exactly when the path became shorter, so repeating it terminates at the root.", "quantifier": "every character sequence", "why_tests_cant": "Termination of a loop over arbitrary paths.", "anchors": ["src/YY/Base/IO/Path.cpp: RemoveFileSpec"]}
{"id": "C66", "title": "GetFileName, GetExtension and GetFileNameWithoutExtension decompose a path", "statement": "GetFileName is the part after the last separator (never containing the root), GetExtension is the part of it from the last dot on, and GetFileNameWithoutExtension followed by GetExtension is GetFileName.", "quantifier": "every character sequence", "why_tests_cant": "Unbounded set of paths.", "anchors": ["src/YY/Base/IO/Path.cpp: GetFileName, GetExtension, GetFileNameWithoutExtension"]}
{"id": "C67", "title": "Appending a relative path extends, appending a rooted one replaces", "statement": "Path::Append(base, x) yields x when x is fully rooted, base when x is empty and otherwise base, exactly one separator and x; the base is kept whatever its sharing state.", "quantifier": "every pair of paths, every sharing state of the base string", "why_tests_cant": "Needs base strings that are shared, which tests with literals avoid.", "anchors": ["src/YY/Base/IO/Path.cpp: Append, Combine"]}
{"id": "C68", "title": "BitsCount counts the set bits", "statement": "The portable BitsCount32/BitsCount64 return the number of one bits of every word.", "quantifier": "all 2^32 / 2^64 words", "why_tests_cant": "2^64 inputs.", "anchors": ["src/YY/Base/Threading/ParallelTaskRunnerImpl.hpp: BitsCount32, BitsCount64"]}
{"id": "C69", "title": "Time zone conversion keeps the precision below a millisecond", "statement": "ToLocalDataTime followed by ToUtcDataTime gives back every tick of the original time, although the conversion goes through a SYSTEMTIME of millisecond resolution.", "quantifier": "all times, all time zones whose conversions are inverse to each other", "why_tests_cant": "2^64 times and unboundedly many zones.", "anchors": ["src/YY/Base/Time/DataTime.cpp: ToLocalDataTime, ToUtcDataTime"]}
{"id": "C70", "title": "A Delegate is an ordered list of handlers, each called once", "statement": "AddHandler appends the handlers of the right side behind those of the left side, RemoveHandler removes exactly the given handler and Invoke calls every registered handler exactly once in registration order; adding a handler already registered elsewhere does not disturb either list.", "quantifier": "every sequence of AddHandler, RemoveHandler and Invoke over any number of handlers and delegates", "why_tests_cant": "The pointer ring has unboundedly many shapes and a broken ring shows only as a later endless loop.", "anchors": ["include/YY/Base/Functional/Delegate.h: AddHandler, RemoveHandler, operator+=, Invoke"]}
{"id": "C71", "title": "Array buffers are large enough for the capacity they record", "statement": "Whenever an Array asks for room for n elements and the request does not fail, the buffer it gets records a capacity of at least n and has the bytes for its header and that many elements.", "quantifier": "every element size, every n up to 2^64-1", "why_tests_cant": "The failures need requests around 2^62 elements, which a test would expect to fail for lack of memory.", "anchors": ["include/YY/Base/Containers/Array.h: SharedData::Alloc, ReAlloc, GetNewCapacity, InternalData::Realloc"]}
{"id": "C72", "title": "Array operations accept references to their own elements", "statement": "a.Insert(i, a[p]), a.Add(a.GetData()+p, c) and a.SetItem(i, a[p]) have the effect of first copying the elements and then calling the operation, in every state of capacity and sharing.", "quantifier": "every array, capacity, sharing state and pair of positions", "why_tests_cant": "Whether the bug shows depends on the spare capacity and on what the allocator does with the freed block.", "anchors": ["include/YY/Base/Containers/Array.h: Insert, Add, SetItem, LockInternalDataIncrement"]}
{"id": "C73", "title": "ReAllocAndZero keeps the old bytes and zeroes the new ones", "statement": "Growing a block with ReAllocAndZero leaves the old contents in place and fills the added bytes with zero.", "quantifier": "every block and every new size", "why_tests_cant": "Needs all block contents; only the build without _MSC_VER is affected.", "anchors": ["include/YY/Base/Memory/Alloc.h: ReAllocAndZero"]}
{"id": "C74", "title": "The timer thread does not spin", "statement": "GetMinimumWakeupTickCount never returns a time that has already passed, so a thread with only future timers sleeps.", "quantifier": "every history of setting, cancelling and processing timers", "why_tests_cant": "The failing states recur for one second per minute and only show as processor load.", "anchors": ["src/YY/Base/Threading/ThreadTaskRunnerTimerManger.h: GetMinimumWakeupTickCount"]}
{"id": "C75", "title": "UTF-16 to UTF-32 transcoding is right for every Unicode text", "statement": "For every sequence of Unicode scalar values, transcoding its UTF-16 form (little or big endian) to UTF-32 appends exactly these values, in the byte order of the destination.", "quantifier": "all texts, all destinations, all allocators", "why_tests_cant": "the range of code points and the interplay of neighbouring units cannot be enumerated; the failing code point U+E000 is a single value in the middle of the range", "anchors": ["src/YY/Base/Strings/StringTransform.cpp:956-1008", "src/YY/Base/Strings/StringTransform.cpp:1165-1278"]}
{"id": "C76", "title": "The byte order of the output never depends on the content", "statement": "For every input, well formed or not, the big endian variant of a transcoder writes the units of the little endian variant with their bytes swapped; swapping twice is the identity.", "quantifier": "all inputs, including malformed ones", "why_tests_cant": "the unswapped replacement characters only show for rare malformed inputs", "anchors": ["src/YY/Base/Strings/StringTransform.cpp:36-108", "src/YY/Base/Strings/StringTransform.cpp:471-576", "src/YY/Base/Strings/StringTransform.cpp:718-854", "src/YY/Base/Strings/StringTransform.cpp:1440-1500"]}
{"id": "C77", "title": "Absolute paths are resolved against the right directory", "statement": "GetFullPath returns a fully qualified path unchanged, joins a relative path to the current directory, joins a path with one leading separator to the root of the current directory, and resolves a drive-relative path c:x against the current directory exactly when that is on drive c.", "quantifier": "all paths, all current directories, both platforms", "why_tests_cant": "paths form an infinite language with six kinds of root; the drive-relative case needs a current directory that tests do not vary", "anchors": ["src/YY/Base/IO/Path.cpp:228-262", "src/YY/Base/IO/Path.cpp:449-471", "src/YY/Base/IO/Path.cpp:529-574"]}
{"id": "C78", "title": "TransformEndian by move into an empty string leaves a usable string", "statement": "Moving a string through the byte-order conversion (TransformEndian with an rvalue source) into an empty destination leaves the destination owning a live buffer with the converted text.", "quantifier": "every reachable pair of strings, source not empty", "why_tests_cant": "The destination reads back correctly until the freed memory is reused; only a model that records which blocks are alive decides it for every text.", "anchors": ["src/YY/Base/Strings/StringTransform.cpp: TransformEndian 69-115", "include/YY/Base/Strings/String.h: StringBase::{Detach,Attach}"]}
{"id": "C79", "title": "An ANSI string keeps its code page", "statement": "The code page given to an ANSI string by SetANSIEncoding is kept by copies of the string and by every later edit of it.", "quantifier": "every reachable string, every operation", "why_tests_cant": "Depends on whether the buffer is shared or locked at the time, which varies with the whole history.", "anchors": ["include/YY/Base/Strings/String.h: AString::SetANSIEncoding, StringBase::{CloneStringData,AllocStringData,LockBuffer}"]}
{"id": "C80", "title": "GetResult returns only a result that was produced", "statement": "GetResult of an asynchronous operation returns the value the operation was resolved with, or throws the exception, error code or cancellation it was ended with; it never returns an object that has not been constructed.", "quantifier": "every interleaving of completing, cancelling and waiting threads, including wake-ups without reason, which WaitOnAddress is documented to have", "why_tests_cant": "Spurious wake-ups do not occur in tests.", "anchors": ["include/YY/Base/Threading/Async.h: AsyncInfo::{WaitTask,ThrowIfWaitTaskFailed,IsCanceled}, AsyncOperation::{GetResult,Resolve}"]}
{"id": "C81", "title": "Join of a sequenced task runner waits for every accepted task", "statement": "When Join returns S_OK, every task the runner had accepted has run to its end, and no task is accepted afterwards.", "quantifier": "any number of posting and joining threads, every interleaving with the workers", "why_tests_cant": "All schedules.", "anchors": ["src/YY/Base/Threading/SequencedTaskRunnerImpl.cpp: Join, CleanupTaskQueue, operator()"]}
{"id": "C82", "title": "A released sequenced task runner is destroyed once and loses no task", "statement": "After the user's last reference is released the workers stop after a bounded number of steps, the runner is destroyed exactly once, after the last thread left its code, and each accepted task has been started or cancelled.", "quantifier": "every interleaving of the release with workers and posting threads", "why_tests_cant": "A use after free or a leak needs an exact interleaving.", "anchors": ["src/YY/Base/Threading/SequencedTaskRunnerImpl.cpp: ~SequencedTaskRunnerImpl, operator(), CleanupTaskQueue"]}
{"id": "C83", "title": "A parallel task runner runs every task it accepts", "statement": "While the user holds a reference and the runner has not been stopped, a posted task is accepted, and each accepted task is run by a worker.", "quantifier": "any number of posting threads, every interleaving with the workers", "why_tests_cant": "A lost wake-up needs an exact interleaving.", "anchors": ["src/YY/Base/Threading/ParallelTaskRunnerImpl.hpp: PostTaskInternal, ExecuteTaskRunner, operator(), SubtractWakeupOnce"]}
{"id": "C84", "title": "A released parallel task runner is destroyed once and not used afterwards", "statement": "After the user's last reference is released and the workers are gone the runner has been destroyed exactly once, and no thread accesses it after that.", "quantifier": "every interleaving of the release with workers and posting threads", "why_tests_cant": "A use after free or a leak needs an exact interleaving.", "anchors": ["src/YY/Base/Threading/ParallelTaskRunnerImpl.hpp: operator(), ExecuteTaskRunner, PostTaskInternal, CleanupTaskQueue", "include/YY/Base/Memory/RefPtr.h: Release, IsShared"]}
{"id": "C85", "title": "Join of a parallel task runner waits for every accepted task", "statement": "When Join returns S_OK, every task the runner had accepted has run to its end, and no task is accepted afterwards.", "quantifier": "any number of posting and joining threads, every limit, every interleaving", "why_tests_cant": "All schedules.", "anchors": ["src/YY/Base/Threading/ParallelTaskRunnerImpl.hpp: Join, CleanupTaskQueue, operator()"]}
{"id": "C86", "title": "SendTask returns when the task is over, with its result", "statement": "SendTask returns the error of posting the task, or it returns after the task's callback has ended and with its result, or with ERROR_CANCELLED when the callback never runs; no wake-up is lost.", "quantifier": "every interleaving of the sending thread and the executing worker", "why_tests_cant": "All schedules, and spurious wake-ups.", "anchors": ["src/YY/Base/Threading/TaskRunner.cpp: TaskRunner::SendTask, TaskEntry::{WaitTask,Wakeup,RunTask}", "src/YY/Base/Threading/SequencedTaskRunnerImpl.cpp: PostTaskInternal, ExecuteTaskRunner"]}
{"id": "C87", "title": "A thread task runner runs its tasks one at a time in the order of acceptance", "statement": "The tasks started or cancelled are a prefix of the tasks pushed, in that order; a task starts only on the runner's thread and ends before the code that was running below it goes on (nested loops included); at most one thread pushes at a time.", "quantifier": "any number of threads posting, joining, interrupting; any messages, timers, nested loops; every interleaving", "why_tests_cant": "All schedules of the push lock against the loop.", "anchors": ["src/YY/Base/Threading/ThreadTaskRunnerImpl.cpp: PostTaskInternal, RunUIMessageLoop, RunBackgroundLoop, RunTaskRunnerLoop", "src/YY/Base/Threading/ThreadTaskRunnerImpl.h: uWakeupCountAndPushLock"]}
{"id": "C88", "title": "A thread task runner sleeps only when there is nothing to do", "statement": "When the loop waits for a message and no post is still between counting and waking, every accepted task has been started; and an accepted task is started after finitely many steps of the loop.", "quantifier": "every interleaving of posts with either message loop", "why_tests_cant": "The window between the loop's test and its wait is a few instructions.", "anchors": ["src/YY/Base/Threading/ThreadTaskRunnerImpl.cpp: PostTaskInternal, RunUIMessageLoop, RunBackgroundLoop, RunTaskRunnerLoop", "src/YY/Base/Threading/ThreadTaskRunnerImpl.h: uWakeupCountAndPushLock"]}
{"id": "C89", "title": "A loop that runs inside another one keeps handling messages", "statement": "A nested message loop takes a task only when there is one, and otherwise looks at messages or sleeps.", "quantifier": "every interleaving, every nesting", "why_tests_cant": "Depends on the number of nested loops and what entered them.", "anchors": ["src/YY/Base/Threading/ThreadTaskRunnerImpl.cpp: PostTaskInternal, RunUIMessageLoop, RunBackgroundLoop, RunTaskRunnerLoop", "src/YY/Base/Threading/ThreadTaskRunnerImpl.h: uWakeupCountAndPushLock"]}
{"id": "C90", "title": "Join returns exactly when the work is done", "statement": "When Join of a thread task runner returns every accepted task has ended, and when every accepted task has ended Join returns.", "quantifier": "every interleaving of posts, tasks and joins", "why_tests_cant": "A wait for ever is not observable.", "anchors": ["src/YY/Base/Threading/ThreadTaskRunnerImpl.cpp: Join, CleanupTaskQueue"]}
{"id": "C91", "title": "A finished runner loses no task", "statement": "After CleanupTaskQueue every task that was accepted has been run or cancelled, later posts are refused, and waiting joins return.", "quantifier": "every interleaving of posts with the end of the loop", "why_tests_cant": "The window between the push lock and the count.", "anchors": ["src/YY/Base/Threading/ThreadTaskRunnerImpl.cpp: CleanupTaskQueue, PostTaskInternal"]}
{"id": "C92", "title": "Dropping or interrupting a runner ends its thread", "statement": "When the user releases the last reference to a thread task runner, or interrupts it, its thread leaves the loops and ends.", "quantifier": "every state of the loop at the time of the release", "why_tests_cant": "A thread that sleeps for ever is not observable.", "anchors": ["src/YY/Base/Threading/ThreadTaskRunnerImpl.cpp: RunBackgroundLoop, RunUIMessageLoop, Interrupt", "src/YY/Base/Threading/TaskRunner.cpp: Create, RunUIMessageLoop"]}
{"id": "C93", "title": "The reference of a thread pool registration is released exactly once", "statement": "Every timer or wait handed to the system's thread pool takes a reference on the object; whichever of the callback, Cancel, a new SetTimerInternal/SetWaitInternal or the failed registration ends the registration, that reference is released exactly once.", "quantifier": "All interleavings of any number of Cancel calls, of setting the object again, and of the callbacks of any number of registrations, including the system's answers to the deletion.", "why_tests_cant": "A double release needs the callback to run completely between two adjacent system calls of another thread; it then corrupts a reference count that some other owner relies on, long after.", "anchors": ["src/YY/Base/Threading/TaskRunnerDispatchImpl.cpp:56-115", "src/YY/Base/Threading/TaskRunnerDispatchImpl.cpp:117-173", "src/YY/Base/Threading/TaskRunner.cpp:142-163", "src/YY/Base/Threading/TaskRunner.cpp:575-603"]}
{"id": "C94", "title": "No thread pool handle is lost", "statement": "A timer or wait registered with the thread pool is deleted in the end: at any time its handle is stored in the object or held by a thread that will delete or store it, and an object has at most one armed registration.", "quantifier": "All interleavings as for C93.", "why_tests_cant": "Leaked timer-queue timers and waits show only as slow growth of system handles.", "anchors": ["src/YY/Base/Threading/TaskRunnerDispatchImpl.cpp:56-115", "src/YY/Base/Threading/TaskRunnerDispatchImpl.cpp:117-173", "src/YY/Base/Threading/TaskRunner.cpp:142-163", "src/YY/Base/Threading/TaskRunner.cpp:575-603"]}
{"id": "C95", "title": "A Wait delivers each completion once and in order", "statement": "The handler of a Wait that calls it for every signal is called with the accepted completions in the order in which they were accepted, once each, at most the last one outstanding; RunTask never runs twice at the same time nor while it is posted or its handler is installed; when it reads the result the operation is completed and the result is the one of the outstanding completion; a handler that returned false or threw is not called again.", "quantifier": "all interleavings of the creating thread, any number of runs, reports and callers of Cancel; all handlers", "why_tests_cant": "Needs a re-armed wait to complete while the previous round is still being reported", "anchors": ["src/YY/Base/Threading/TaskRunner.cpp:509-573", "include/YY/Base/Threading/Async.h:163-324", "include/YY/Base/Threading/Async.h:436-471"]}
{"id": "C96", "title": "No signal of a Wait is lost", "statement": "If nobody cancels a Wait, then when everything has settled every accepted completion was delivered and either the handler has asked to stop or the wait is armed with its handler installed; a wait that cannot be set is reported to the handler, as documented.", "quantifier": "all interleavings, however the pool takes the wait", "why_tests_cant": "The loss needs a preemption between two adjacent instructions in each of two threads", "anchors": ["src/YY/Base/Threading/TaskRunner.cpp:330-362", "src/YY/Base/Threading/TaskRunner.cpp:521-573", "include/YY/Base/Threading/Async.h:309-324"]}
{"id": "C97", "title": "Cancel ends a Wait", "statement": "After Cancel has returned the handler of the Wait is not started, the wait is not armed again, and whoever waits for the Wait is woken.", "quantifier": "all interleavings and any number of callers of Cancel", "why_tests_cant": "Needs Cancel inside the window between RunTask's check and the call of the handler", "anchors": ["src/YY/Base/Threading/TaskRunner.cpp:521-608", "src/YY/Base/Threading/TaskRunner.cpp:60-80"]}
{"id": "C98", "title": "An NString stays within its buffer and never uses freed memory", "statement": "No sequence of operations on NString objects and the typed strings they share buffers with writes behind the bytes of a buffer or uses a freed buffer; every buffer has exactly as many references as strings hold it and is freed with the last one.", "quantifier": "all sequences of operations on any number of strings, all encodings, texts and conversions", "why_tests_cant": "A capacity that is wrong by a factor shows only when the string grows into it, often much later and in another object", "anchors": ["include/YY/Base/Strings/NString.h:162-410", "include/YY/Base/Strings/NString.h:412-604", "include/YY/Base/Strings/NString.h:823-871", "src/YY/Base/Strings/StringTransform.cpp:81-98", "include/YY/Base/Strings/String.h:266-332"]}
{"id": "C99", "title": "An NString holds the text and the encoding it was given", "statement": "After any sequence of operations each string holds the text and the encoding that the operations on it give: SetString those of its argument, SetEncoding the converted text in the new encoding, AppendString the old text followed by the converted argument, GetString the converted text; the strings it shares a buffer with keep theirs.", "quantifier": "all sequences of operations on any number of strings, all encodings, texts and conversions", "why_tests_cant": "The number of pairs of encodings times the ways of sharing a buffer is large", "anchors": ["include/YY/Base/Strings/NString.h:162-410", "include/YY/Base/Strings/NString.h:412-604", "include/YY/Base/Strings/NString.h:605-754", "include/YY/Base/Strings/NString.h:761-791", "include/YY/Base/Strings/NString.h:873-895", "include/YY/Base/Strings/String.h:511-539"]}
{"id": "C100", "title": "A failed conversion leaves an NString as it was", "statement": "If SetEncoding or AppendString reports that the text cannot be converted, the NString holds the text and the encoding it had before.", "quantifier": "all reachable strings, encodings, texts and conversions", "why_tests_cant": "Needs every pair of encodings with malformed text", "anchors": ["include/YY/Base/Strings/NString.h:260-410", "include/YY/Base/Strings/NString.h:873-895"]}
{"id": "C101", "title": "An asynchronous file operation is freed once, when nothing uses it", "statement": "An operation of ReadAsync, WriteAsync or ConnectAsync is never used after it was freed and is freed at most once; when it is freed neither the kernel nor the token nor a thread has a pointer to it; when all Tasks are dropped and the kernel is done, it has been freed.", "quantifier": "all interleavings of the caller, holders of Tasks, callers of the token's Cancel, the kernel and the pool thread; all outcomes of the call", "why_tests_cant": "The reference that is handed to the kernel is given back on one of three paths that depend on a handle mode, the timing of the device and the token", "anchors": ["src/YY/Base/IO/File.cpp:15-54", "src/YY/Base/IO/File.cpp:55-108", "include/YY/Base/Threading/Async.h:546-584", "include/YY/Base/Threading/CancellationToken.h:127-200", "src/YY/Base/Threading/TaskRunnerDispatchImpl.cpp:28-51"]}
{"id": "C102", "title": "An asynchronous file operation reports what the kernel did, once", "statement": "If the operation ends as completed, its status is the status the kernel gave; once it is settled, neither its state nor its status changes.", "quantifier": "all interleavings as in C101", "why_tests_cant": "Completion, Cancel and the token race for the state", "anchors": ["src/YY/Base/IO/File.cpp:55-108", "include/YY/Base/Threading/Async.h:95-115", "include/YY/Base/Threading/Async.h:300-315", "include/YY/Base/Threading/Async.h:546-584"]}
{"id": "C103", "title": "A settled operation no longer uses the caller's buffer", "statement": "When the operation is settled, so that the caller may free the buffer, the kernel no longer reads or writes it.", "quantifier": "all interleavings as in C101", "why_tests_cant": "The kernel writes to the buffer later, if at all", "anchors": ["src/YY/Base/IO/File.cpp:29-35", "src/YY/Base/IO/File.cpp:49-53", "include/YY/Base/Threading/Async.h:95-115"]}
{"id": "C104", "title": "Cancelling stops an asynchronous file operation", "statement": "If a Task's Cancel was called or its token was cancelled, and the kernel still works on the operation, then the kernel has been asked to stop once all threads have finished what they were doing.", "quantifier": "all interleavings as in C101", "why_tests_cant": "The window between the last look at the token and Register is a few instructions long", "anchors": ["src/YY/Base/IO/File.cpp:29-35", "src/YY/Base/IO/File.cpp:49-53", "src/YY/Base/IO/File.cpp:84-99", "include/YY/Base/Threading/CancellationToken.h:149-193"]}
{"id": "C105", "title": "An asynchronous file operation settles", "statement": "The threads come to rest after a bounded number of accesses in any order, without deadlock; if the kernel is done by then, the operation is settled and its handlers can run.", "quantifier": "all interleavings as in C101", "why_tests_cant": "A lost completion shows as a Task that never ends, in some interleavings only", "anchors": ["src/YY/Base/IO/File.cpp:55-108", "include/YY/Base/Threading/Async.h:95-115", "include/YY/Base/Threading/Async.h:546-584", "include/YY/Base/Threading/CancellationToken.h:173-193"]}
{"id": "C106", "title": "AsyncFile objects own each handle exactly once", "statement": "Every open handle is held by exactly one AsyncFile, every object holds only open handles, and no handle is closed twice; the object knows whether its handle skips completion packets.", "quantifier": "all sequences of constructions, moves, assignments, Close and destructions on any number of objects", "why_tests_cant": "Move constructors and assignments multiply the histories of an object", "anchors": ["include/YY/Base/IO/File.h:42-82", "include/YY/Base/IO/File.h:123-136"]}
{"id": "C107", "title": "A proxy task runner runs its tasks in posting order", "statement": "The tasks started or cancelled are a prefix of the tasks pushed, in that order; starts and ends of tasks are nested like brackets; once the runner is destroyed, every task pushed was started or cancelled, and nothing happens any more.", "quantifier": "all interleavings of threads in PostTask and Join, Interrupt, the runner's thread, message loops run by tasks, and dropping the last reference", "why_tests_cant": "Nested message loops and concurrent posts give unboundedly many orders", "anchors": ["src/YY/Base/Threading/ThreadTaskRunnerProxyImpl.h:147-172", "src/YY/Base/Threading/ThreadTaskRunnerProxyImpl.h:213-230", "src/YY/Base/Threading/ThreadTaskRunnerProxyImpl.h:243-294", "src/YY/Base/Threading/ThreadTaskRunnerProxyImpl.h:328-357"]}
{"id": "C108", "title": "A proxy task runner does not lose a wake-up", "statement": "A task whose post succeeded is run: when no message is left, the runner's code is not on the stack and no thread is in PostTask, every accepted task was run; the runner's thread reaches such a state by itself in boundedly many steps.", "quantifier": "all interleavings as in C107", "why_tests_cant": "A lost message shows as a task that is never run, in some interleavings only", "anchors": ["src/YY/Base/Threading/ThreadTaskRunnerProxyImpl.h:147-172", "src/YY/Base/Threading/ThreadTaskRunnerProxyImpl.h:232-241", "src/YY/Base/Threading/ThreadTaskRunnerProxyImpl.h:243-294"]}
{"id": "C109", "title": "Join of a proxy task runner returns when the runner is done", "statement": "When Join returns S_OK no task is running and every task accepted before was run; after that no task is accepted or started.", "quantifier": "all interleavings as in C107", "why_tests_cant": "The result depends on where the messages and the flags meet", "anchors": ["src/YY/Base/Threading/ThreadTaskRunnerProxyImpl.h:31-35", "src/YY/Base/Threading/ThreadTaskRunnerProxyImpl.h:108-130", "src/YY/Base/Threading/ThreadTaskRunnerProxyImpl.h:213-230", "src/YY/Base/Threading/ThreadTaskRunnerProxyImpl.h:344-350"]}
{"id": "C110", "title": "The window timer of a proxy task runner is set for the next timer", "statement": "Whenever a timer is pending the window timer is running, and its next WM_TIMER is due no later than the wake-up time of the timing wheel.", "quantifier": "every history of timers set on the runner's own and on other threads, cancellations and timer messages, for every clock", "why_tests_cant": "The failure is a timer that comes late or never, on one of two threads", "anchors": ["src/YY/Base/Threading/ThreadTaskRunnerProxyImpl.h:174-205", "src/YY/Base/Threading/ThreadTaskRunnerProxyImpl.h:296-326", "src/YY/Base/Threading/TaskRunnerImpl.cpp:23-39"]}
{"id": "C111", "title": "The cached tokens are published once and no handle is lost", "statement": "A token handle published by one of the three getters is never replaced or closed, handles are closed at most once, and when all calls have returned the open handles are exactly the published ones; what is published is of the promised kind: the system's token, an impersonation token of it, a limited token.", "quantifier": "any number of threads in any of the getters and in LowPrivilegeCreateProcessW, all interleavings, every system call may fail", "why_tests_cant": "Losing the race or an error path leaks or closes a handle only in rare interleavings", "anchors": ["src/YY/Base/Security/Token.cpp:15-90", "src/YY/Base/Security/Token.cpp:91-140", "src/YY/Base/Security/Token.cpp:142-176"]}
{"id": "C112", "title": "Impersonation ends with the scope", "statement": "When LowPrivilegeCreateProcessW has returned, or calls CreateProcessW, the thread has the token it had before; privileges are enabled in the system's token only.", "quantifier": "all interleavings, every system call may fail, with or without a token of the thread's own", "why_tests_cant": "The failures of OpenThreadToken and SetThreadToken cannot be provoked in a test", "anchors": ["include/YY/Base/Security/ThreadImpersonationScope.h:17-45", "src/YY/Base/Process/Process.cpp:55-128"]}
{"id": "C113", "title": "LowPrivilegeCreateProcessW creates one process with limited rights", "statement": "S_OK means that exactly one process was created, an error that none was; called in a process with the full token, the new process has the limited one.", "quantifier": "all interleavings with other calls and with the getters, every system call may fail", "why_tests_cant": "Depends on who asks for the limited token first in the life of the process", "anchors": ["src/YY/Base/Process/Process.cpp:18-128", "src/YY/Base/Security/Token.cpp:91-140"]}
{"id": "C114", "title": "The Linux thread pool respects its limit and its answers", "statement": "There are never more threads in the pool than MaxThreadsCount. Every call of ExecuteTask is answered once; it fails only if an allocation or pthread_create failed, and a task it refused is never run.", "quantifier": "any limit, any number of callers, all interleavings, every allocation and thread creation may fail", "why_tests_cant": "The limit is 500 threads; failures of pthread_create and races on the counter are rare", "anchors": ["src/YY/Base/Threading/ThreadPool.Linux.cc:15-74", "src/YY/Base/Threading/ThreadPool.Linux.cc:76-124"]}
{"id": "C115", "title": "The Linux thread pool runs every accepted task exactly once", "statement": "A task for which ExecuteTask returned S_OK is run once, and when nothing can happen any more it has been run.", "quantifier": "any limit, any number of callers, all interleavings", "why_tests_cant": "Needs all threads of the pool busy and a push between the last look at the queue and going to sleep", "anchors": ["src/YY/Base/Threading/ThreadPool.Linux.cc:15-47", "src/YY/Base/Threading/ThreadPool.Linux.cc:83-108", "include/YY/Base/Sync/InterlockedQueue.h:42-87", "include/YY/Base/Sync/InterlockedSingleLinkedList.h:84-106"]}
{"id": "C116", "title": "Waking a thread of the Linux pool is harmless", "statement": "The signal that wakes a thread is never delivered to a thread that does not block it (which would terminate the process), and the pool never reads a slot of its queue that holds no task.", "quantifier": "any limit, any number of callers, all interleavings", "why_tests_cant": "The window is a few instructions, once in the life of each thread", "anchors": ["src/YY/Base/Threading/ThreadPool.Linux.cc:17-25", "src/YY/Base/Threading/ThreadPool.Linux.cc:104-112"]}
{"id": "C117", "title": "Failures are recognised as failures", "statement": "A Win32 status other than success becomes an HRESULT that FAILED accepts, error constants are failures and distinct, and a task the pool refused has the references it had before.", "quantifier": "all statuses, widths of long 32 and 64 bits, all answers of the pool", "why_tests_cant": "Error paths on a platform the tests do not run on", "anchors": ["include/YY/Base/ErrorCode.h:10-51", "src/YY/Base/Threading/ThreadPool.Linux.h:53-72", "src/YY/Base/Threading/ThreadPool.Windows.h:32-56"]}
{"id": "C118", "title": "WaitEqualOnAddress answers truthfully and in time", "statement": "The call returns true only if the value was equal at some moment of the call, and false only if it is not equal and the whole time-out has passed; with TimeSpan::GetMax it never returns false; it compares exactly the given number of bytes.", "quantifier": "all histories of the memory, all time spans, all behaviours WaitOnAddress is allowed (spurious wake-ups included), any number of rounds", "why_tests_cant": "Depends on wake-ups at particular moments, on fractions of a millisecond and on time-outs of weeks", "anchors": ["src/YY/Base/Sync/Sync.cpp:16-59", "src/YY/Base/Sync/Sync.cpp:61-93"]}
{"id": "C119", "title": "The cached time zone is shared safely", "statement": "All calls of GetCurrentTimeZone return the same living object, describing the current zone, and every object is destroyed exactly once, when its last reference is dropped.", "quantifier": "any number of threads, all interleavings of calls, drops and exit handlers, every query of the system may fail", "why_tests_cant": "Needs a race of the first calls, or of a call with the exit handlers", "anchors": ["src/YY/Base/Time/TimeZone.cpp:11-50", "include/YY/Base/Memory/RefPtr.h:30-64"]}
{"id": "C120", "title": "A task made on a runner settles truthfully", "statement": "The callback of CreateTask or CreateDelayTask is called at most once, and not at all if the task or its token was cancelled before it started; the task completes with what it returned or fails with what it threw; a sleep ends with S_OK only after its time; when everything has come to rest the task is settled, and a cancelled token settles it at once.", "quantifier": "all three functions, with and without a token, all interleavings with cancellations, with refusal and dropping of the entry, any number of steps", "why_tests_cant": "A refused post and a runner that ends with tasks in its queue are rare; waiting for ever cannot be observed", "anchors": ["include/YY/Base/Threading/TaskRunner.h:248-302", "src/YY/Base/Threading/TaskRunner.cpp:183-215", "src/YY/Base/Threading/TaskRunner.cpp:244-264", "include/YY/Base/Threading/Task.h:389-418", "include/YY/Base/Threading/Async.h:437-471"]}
{"id": "C121", "title": "Version queries report the version or a clean failure", "statement": "GetFileVersion returns S_OK only with the version in the resource, leaves 0.0.0.0 after a failure and frees the module it loaded; GetOperatingSystemVersion keeps major, minor and build, and a later service pack never gives a lower version.", "quantifier": "all answers of the system, exceptions at every access of the mapped file, all version numbers", "why_tests_cant": "Disk errors while a mapped file is read and systems before Windows Vista are not available to tests", "anchors": ["src/YY/Base/Utils/FileInfo.cpp:17-79", "src/YY/Base/Utils/SystemInfo.cpp:15-52"]}
{"id": "C122", "title": "A continuation is called once, with the ending of its source, and reports truthfully", "statement": "The callback of Then or ThenError is called at most once; Then's only with the value of a source that completed, ThenError's only with the exception or error of one that failed, never before the source is decided; the continuation settles with what the callback (or the task it returned) gave, with the ending of the source if the callback was not called, or as cancelled; it is not called for a source or continuation that was cancelled before.", "quantifier": "all three forms, with and without a token and a runner, every interleaving of source, continuation, inner task, cancellation, any number of steps", "why_tests_cant": "Which thread completes the source first decides the path; the windows between decision, value and result code are a few instructions long", "anchors": ["include/YY/Base/Threading/Task.h:118-171", "include/YY/Base/Threading/Task.h:389-418", "include/YY/Base/Threading/Task.h:470-558", "include/YY/Base/Threading/Task.h:560-724", "include/YY/Base/Threading/Async.h:64-97"]}
{"id": "C123", "title": "A continuation settles, and runs where it was asked to", "statement": "When everything has come to rest and the source is settled, the continuation is settled; its callback runs on the runner that was current when it was attached, or, without one, in the thread that completes the source; the error it reports is the one that occurred.", "quantifier": "all three forms, all interleavings, runners that refuse, drop or expire, any number of steps", "why_tests_cant": "Waiting for ever cannot be observed; a runner that dies between attaching and completion is rare", "anchors": ["include/YY/Base/Threading/Task.h:118-171", "include/YY/Base/Threading/Task.h:470-558", "include/YY/Base/Threading/Task.h:560-724"]}
{"id": "C124", "title": "A coroutine goes on once after co_await, with the ending of the task, where it awaited", "statement": "After co_await the coroutine goes on at most once, in the thread that awaited if it need not wait, else on the runner that was current there, or, without one, in the thread that completes the task; co_await gives the value of a completed task and throws what a failed one holds; its own task completes with what the body returned or fails with what it threw; its frame is never used after it was destroyed, never destroyed twice, and never resumed unless suspended.", "quantifier": "with and without token and runner, every ending of the task, every interleaving of await_ready, await_suspend, completion, cancellation, expiry, any number of steps", "why_tests_cant": "The windows between await_ready, await_suspend and the registration are a few instructions; use of a freed frame often goes unnoticed", "anchors": ["include/YY/Base/Threading/Task.h:112-115", "include/YY/Base/Threading/Task.h:726-827", "include/YY/Base/Threading/Task.h:829-911", "include/YY/Base/Threading/Async.h:139-196"]}
{"id": "C125", "title": "A coroutine that awaits comes to its end", "statement": "When the awaited task is settled and everything has come to rest, the coroutine has run to its end, its own task is settled and its frame is freed.", "quantifier": "with and without token and runner, every ending of the task, runners that refuse, drop or expire, any number of steps", "why_tests_cant": "Waiting for ever cannot be observed; a runner that dies while a coroutine is suspended is rare", "anchors": ["include/YY/Base/Threading/Task.h:829-911", "include/YY/Base/Threading/Task.h:726-827"]}
{"id": "C126", "title": "QueryInterface of ComObjectImpl obeys the rules of COM", "statement": "Exactly the declared interfaces and IUnknown are found, with a null result otherwise; what is handed out may be used as the interface that was asked for; through any pointer that was handed out every query is defined and has the same answer, so IUnknown is always the same pointer.", "quantifier": "all declarations that compile, all trees of interfaces, all chains of queries", "why_tests_cant": "The rules concern all pairs of interfaces and all declarations of a class template", "anchors": ["include/YY/Base/Utils/ComObjectImpl.h:15-103", "include/YY/Base/Utils/ComObjectImpl.h:127-144", "include/YY/Base/Utils/ComObjectImpl.h:163-184"]}
{"id": "C127", "title": "An object made with ComObjectImpl is deleted when its last reference is released", "statement": "The object is deleted exactly once, by the Release of the last reference, however often it was queried, referenced, released and passed between clients.", "quantifier": "all numbers of clients, all sequences of atomic operations", "why_tests_cant": "Too early and missing deletions show up, if at all, as crashes or leaks much later", "anchors": ["include/YY/Base/Utils/ComObjectImpl.h:127-160"]}
{"id": "C128", "title": "Converting UTF-16 to an ANSI string appends all or nothing", "statement": "The conversion ends; success means that the destination is what it was followed by the source in the code page of the destination, and that this fits the buffer; an error leaves the destination as it was; and it succeeds if the code page has the text and there is memory for twice the result.", "quantifier": "all code pages, all texts, all buffers that LockBuffer may give, all errors of the system", "why_tests_cant": "The growing loop runs more than once only for texts that need more than two bytes a character; errors of the system cannot be provoked at will", "anchors": ["src/YY/Base/Strings/StringTransform.cpp:137-252"]}
{"id": "C129", "title": "Converting from an ANSI string keeps the text or reports an error", "statement": "If the conversion of an ANSI text to another string reports success, the destination is what it was followed by that text; this also holds between two ANSI strings.", "quantifier": "all code pages, all texts, all errors of the system", "why_tests_cant": "Depends on installed code pages; a text in the wrong code page is still a valid string", "anchors": ["src/YY/Base/Strings/StringTransform.cpp:122-135", "src/YY/Base/Strings/StringTransform.cpp:255-361", "include/YY/Base/Strings/String.h:450-488"]}
{"id": "C130", "title": "A bound method runs on a living object only", "statement": "A function made by Bind from a method and a pointer never calls the method on a null pointer or on an object that is gone, and the object is not destroyed while the method runs; a weak pointer or an observer whose object is gone gives an OperationCanceledException; owning pointers keep the object, the others do not; it is destroyed exactly once.", "quantifier": "all kinds of pointers, any number of threads, owners and copies of the bound function, all interleavings", "why_tests_cant": "The window between the test of the pointer and the call is a few instructions", "anchors": ["include/YY/Base/Functional/Bind.h:82-246"]}
{"id": "C131", "title": "A delayed task runs after its delay, not before", "statement": "A task posted with PostDelayTask is accepted, what is asked of the system is not longer than the delay, and the task runs, and not before the delay has passed.", "quantifier": "all delays, all counter frequencies, all clock readings", "why_tests_cant": "Depends on the frequency of the machine's performance counter and on delays of weeks", "anchors": ["src/YY/Base/Threading/TaskRunner.cpp:244-254", "src/YY/Base/Threading/TaskRunner.cpp:365-382", "src/YY/Base/Threading/TaskRunnerDispatchImpl.cpp:56-115", "include/YY/Base/Time/TickCount.h:208-242"]}
{"id": "C132", "title": "A periodic timer fires no more often than its interval", "statement": "Over any number of periods the callback of CreateTimer starts no more often than once per interval, the first time an interval after the timer was made; it is set again only after a callback that returned true, was not cancelled, and whose runner exists; the runs stay on a grid.", "quantifier": "all intervals, all counter frequencies, all histories of clock readings of any length", "why_tests_cant": "A drift of microseconds per period shows only after hours", "anchors": ["src/YY/Base/Threading/TaskRunner.cpp:101-140", "src/YY/Base/Threading/TaskRunner.cpp:310-328"]}
{"id": "C133", "title": "A time-out is waited for, and only that long", "statement": "A wait with a time-out ends no sooner and no later than the time-out; one that is zero or negative does not wait; TimeSpan::GetMax() waits without limit.", "quantifier": "all time-outs, all counter frequencies, all clock readings", "why_tests_cant": "Time-outs of 49 days are not tested; the frequency is that of the machine", "anchors": ["src/YY/Base/Threading/TaskRunner.cpp:20-34", "src/YY/Base/Threading/TaskRunner.cpp:49-68", "src/YY/Base/Threading/TaskRunner.cpp:218-241", "src/YY/Base/Threading/TaskRunnerDispatchImpl.cpp:117-174"]}
{"id": "C134", "title": "A chain of continuations behaves like try and catch", "statement": "A chain of Then, ThenError and ThenErrorIf calls the callbacks that the same code in one function with try and catch would call, with the same arguments in the same order, and a waiter at its end gets the same value or exception; of several handlers the first whose type fits is called.", "quantifier": "chains of any length, all callbacks, all endings of the source, every relation between exception types", "why_tests_cant": "Depends on the combination of stages and of exception types; tests try single stages", "anchors": ["include/YY/Base/Threading/Task.h:117-207", "include/YY/Base/Threading/Task.h:389-418", "include/YY/Base/Threading/Task.h:488-512", "include/YY/Base/Threading/Task.h:576-602", "include/YY/Base/Threading/Task.h:618-720", "include/YY/Base/Threading/Async.h:64-97", "include/YY/Base/Threading/Async.h:163-241"]}
{"id": "C135", "title": "In a callback the runner that calls it is the current one", "statement": "While a runner calls a task's callback, or a callback because the task was dropped, GetCurrent on that thread gives that runner, its typed forms give it exactly when the class fits, SendTask to it calls the callback at once and SendTask to another runner posts.", "quantifier": "any number of threads and runners, all interleavings, any depth of nested loops and direct calls", "why_tests_cant": "Depends on nesting of loops, jobs and releases on several threads", "anchors": ["src/YY/Base/Threading/TaskRunnerImpl.cpp:15", "src/YY/Base/Threading/TaskRunner.cpp:168-171", "src/YY/Base/Threading/TaskRunner.cpp:266-292", "src/YY/Base/Threading/TaskRunner.cpp:414-423", "src/YY/Base/Threading/TaskRunner.cpp:495-502", "src/YY/Base/Threading/SequencedTaskRunnerImpl.cpp:103-155", "src/YY/Base/Threading/ParallelTaskRunnerImpl.hpp:305-362", "src/YY/Base/Threading/ThreadTaskRunnerImpl.cpp:379-431"]}
{"id": "C136", "title": "A thread has one runner and a thread runner one thread", "statement": "BindCurrentThread is refused while the thread has a runner, a bound runner stays the current one of its thread as long as it lives, all tasks of a thread runner ever run on one thread, and message loops are only run for thread runners.", "quantifier": "any number of threads and runners, all interleavings, any depth of nested loops and direct calls", "why_tests_cant": "Needs runs in which runners die and threads are bound again", "anchors": ["src/YY/Base/Threading/TaskRunner.cpp:398-476", "src/YY/Base/Threading/ThreadTaskRunnerImpl.cpp:379-431", "src/YY/Base/Threading/ThreadTaskRunnerProxyImpl.h:137-141", "src/YY/Base/Threading/ThreadTaskRunnerProxyImpl.h:322-362"]}
{"id": "C137", "title": "Tasks that wait for other runners come to an end", "statement": "When tasks SendTask to other runners, everything that was queued, sent or posted is called once and all senders go on, provided that SendTask goes only upwards in some order of the runners.", "quantifier": "any number of runners, tasks of any size and nesting, all schedules, all pool limits", "why_tests_cant": "Depends on the number of runners against the 500 threads of the pool and on who waits for whom", "anchors": ["src/YY/Base/Threading/TaskRunner.cpp:256-306", "src/YY/Base/Threading/TaskRunner.cpp:398-411", "src/YY/Base/Threading/SequencedTaskRunnerImpl.cpp:75-155", "src/YY/Base/Threading/ThreadPool.Linux.cc:12-38"]}
{"id": "C138", "title": "A scope guard calls its callback once, when its scope is left", "statement": "Each object made by MakeAutoCleanup calls its callback exactly once, when the block that declares it is left, whether by reaching its end or by an exception, in the opposite order of declaration, after everything that follows it in the block.", "quantifier": "all functions made of guards, blocks, exceptions and handlers, of any size and nesting; any number of copies made by the compiler", "why_tests_cant": "Depends on nesting and on where exceptions come from; the unit test has one guard and one block", "anchors": ["include/YY/Base/Utils/AutoCleanup.h:36-64"]}
{"id": "C139", "title": "AutoLock keeps others out and always lets them in again", "statement": "While a thread is in the scope of an AutoLock no other thread is in the scope of an AutoLock or AutoSharedLock of the same lock; when a function returns or throws it has left all its locks; and threads that take locks in one order all come to their end.", "quantifier": "any number of threads, locks and functions of any nesting, all interleavings", "why_tests_cant": "All interleavings of several threads with exceptions", "anchors": ["include/YY/Base/Sync/AutoLock.h:14-55", "include/YY/Base/Sync/SRWLock.h:14-60"]}
{"id": "C140", "title": "A token made from a weak pointer tells whether the object is gone", "statement": "IsCancellationRequested of a token made by CancellationToken::FromPtr answers true exactly when nobody holds the watched object any more (always for a null pointer), never touches memory that has been given back, and stays true once it was; the token of a source answers true exactly after Cancel; a handler registered on a token that is not cancelled is kept.", "quantifier": "all sequences of creating, copying, dropping, locking, cancelling and asking on any number of objects, sources and tokens", "why_tests_cant": "Lifetimes of three kinds of objects that watch each other", "anchors": ["include/YY/Base/Threading/CancellationToken.h:38-125", "include/YY/Base/Memory/WeakPtr.h:23-150", "include/YY/Base/Memory/RefPtr.h:28-113"]}
{"id": "C141", "title": "What nobody holds any more is given back", "statement": "When the last RefPtr of an object is gone it is destroyed, and when besides nobody watches it its memory is given back; the same for sources and for tokens made by FromPtr.", "quantifier": "all sequences of operations, any number of objects, sources and tokens", "why_tests_cant": "A leak shows in no answer of the interface", "anchors": ["include/YY/Base/Threading/CancellationToken.h:78-78", "include/YY/Base/Threading/CancellationToken.h:101-101", "include/YY/Base/Threading/CancellationToken.h:124-124", "include/YY/Base/Threading/CancellationToken.h:198-198", "include/YY/Base/Memory/RefPtr.h:51-87", "include/YY/Base/Memory/RefPtr.h:141-146"]}
{"id": "C142", "title": "All threads learn one number of processors, the right one", "statement": "GetLogicalProcessorCount returns the number of logical processors of the machine, never 0, and the same number in all threads and calls, also if the system's answer changes in between.", "quantifier": "all machines (packages, groups, masks), any number of concurrent calls, all interleavings and answers", "why_tests_cant": "Needs machines with several sockets and a race at the first call", "anchors": ["src/YY/Base/Threading/ParallelTaskRunnerImpl.hpp:55-127"]}
{"id": "C143", "title": "The current directory is returned whole", "statement": "Path::GetCurrentDirectory returns the directory, of any length, that its last call of the system has seen, writes only into its buffer, and ends however other threads change the directory.", "quantifier": "directories of any length, any change of the directory between the calls, memory failing at any time", "why_tests_cant": "Needs very long directory names and another thread that changes the directory at the right moment", "anchors": ["src/YY/Base/IO/Path.cpp:576-620", "include/YY/Base/Strings/String.h:266-334"]}
{"id": "C144", "title": "The operators of flags are those of sets", "statement": "For the enumerations of flags |, &, ^ and ~ (and |=, &=, ^=) are union, intersection, symmetric difference and complement of sets of flags, with results of the type; HasFlags says whether the flags asked for are in the set; Cancel puts exactly the flag Canceled in, and says whether it was new.", "quantifier": "all values of a 32-bit signed or unsigned enumeration", "why_tests_cant": "2^64 pairs of values", "anchors": ["include/YY/Base/YY.h:52-103", "include/YY/Base/Threading/TaskRunner.h:26-46", "include/YY/Base/Threading/TaskRunner.h:99-102", "include/YY/Base/IO/File.h:21-40", "src/YY/Base/Threading/TaskRunner.cpp:70-79"]}
{"id": "C145", "title": "The string forms of the path functions give what the view forms give", "statement": "GetPathRoot, RemoveFileSpec, GetFileName, GetExtension, GetFileNameWithoutExtension and GetDirectoryPath give for a string the text that they give for a view of it, with defined operations only, wherever the string lies in memory.", "quantifier": "all texts of any length, both systems, all addresses", "why_tests_cant": "Addresses and undefined pointer differences do not show in the results of one compiler", "anchors": ["src/YY/Base/IO/Path.cpp:264-447", "include/YY/Base/Strings/String.h:806-873", "include/YY/Base/Strings/StringView.h:122-130", "include/YY/Base/Strings/StringView.h:533-555"]}
{"id": "C146", "title": "Formatting appends the formatted text or reports an error", "statement": "AppendFormat appends, and Format sets, exactly the text that the format gives with its arguments, in a buffer large enough; when it fails it says so and the text stays (AppendFormat) or is empty (Format).", "quantifier": "all formats and argument lists, all strings with own, shared or no buffer, memory failing or not, both calling conventions of va_list", "why_tests_cant": "Depends on the platform's va_list, on sharing, on where the arguments point and on empty results", "anchors": ["include/YY/Base/Strings/String.h:47-131", "include/YY/Base/Strings/String.h:266-360", "include/YY/Base/tchar.h:98-168"]}
{"id": "C147", "title": "Malformed UTF-8 is marked, and nothing else is lost", "statement": "Converting any bytes to UTF-16 gives the characters of the text and one '?' for each byte that belongs to no character and for an incomplete character at the end; forms that UTF-8 forbids become '?'.", "quantifier": "all byte sequences, all allocators that grant, both byte orders", "why_tests_cant": "The malformed sequences are unbounded in number and position; the losses appear only at the end of the input", "anchors": ["src/YY/Base/Strings/StringTransform.cpp:363-576"]}
{"id": "C148", "title": "The result of a conversion is well formed whatever the input", "statement": "Converting UTF-16 to UTF-8 or UTF-32, or UTF-32 to UTF-8 or UTF-16, gives well-formed text for every input: surrogates that are alone and numbers that are no code points become '?'.", "quantifier": "all unit sequences, all allocators that grant, both byte orders", "why_tests_cant": "Needs surrogates in every order and at every position", "anchors": ["src/YY/Base/Strings/StringTransform.cpp:857-1275", "src/YY/Base/Strings/StringTransform.cpp:1298-1736"]}
{"id": "C149", "title": "The callback of AsyncRead, AsyncWrite and AsyncConnect is called once, in the caller's context", "statement": "If AsyncRead, AsyncWrite or AsyncConnect returns ERROR_SUCCESS, the callback is called exactly once, at once or when the operation has ended, and on the runner of the caller if there is one; the calls never wait for ever; a failure is returned.", "quantifier": "all three functions, every interleaving of caller, completion and runner, with and without a runner, handles that skip packets or not, any number of steps", "why_tests_cant": "The operation must end between two instructions of the caller to take the third path; a runner that ends first is rare", "anchors": ["include/YY/Base/IO/File.h:190-263", "include/YY/Base/IO/File.h:344-369", "include/YY/Base/Threading/Task.h:118-138", "include/YY/Base/Threading/Task.h:478-512"]}
{"id": "C150", "title": "The callback learns how the operation went", "statement": "The status given to the callback is ERROR_SUCCESS if and only if the operation succeeded, otherwise its error, and the count is the number of bytes moved, on every path.", "quantifier": "all three functions, all statuses and byte counts, every interleaving", "why_tests_cant": "Depends on whether the operation fails at once, fails before the status is read, or fails later", "anchors": ["include/YY/Base/IO/File.h:190-263", "include/YY/Base/IO/File.h:344-369", "src/YY/Base/IO/File.cpp:37-47", "src/YY/Base/IO/File.cpp:56-109"]}
{"id": "C151", "title": "Two pointers are compared and exchanged together", "statement": "CompareExchangeTwoPoints replaces both words if and only if both equal the comparand, returns whether it did, and leaves the previous pair in the comparand; a loop around it loses no update, whatever comparand it starts with, and a thread fails again only if another update took effect.", "quantifier": "both forms (64-bit exchange of two 32-bit words, 128-bit exchange of two 64-bit words), all words, any number of threads and updates, every interleaving, torn first loads", "why_tests_cant": "Upper words with the sign bit set, swapped halves and torn pairs are rarely met by tests, and the two forms run on different processors", "anchors": ["include/YY/Base/Sync/Interlocked.h:460-481"]}
