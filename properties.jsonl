{"id": "C01", "title": "dabc::Queue is a FIFO list", "statement": "Any sequence of Push / PushRef / Pop / PopOnly / Front / Back / Item / Size / Empty / Full calls on a dabc::Queue<T> returns exactly what the same calls on a plain first-in-first-out list return; an auto-expanding queue never rejects or loses an item, a fixed queue rejects a push exactly when it holds `capacity` items.", "quantifier": "every initial capacity (including 0), every element value, every finite sequence of operations in which Pop/Front/Back/Item respect their documented precondition", "why_tests_cant": "head/tail wrap-around and re-allocation (doubling, minimum 16) interact in every combination of capacity and position; tests only reach a few of them", "anchors": ["base/dabc/Queue.h: Queue::Push, PushEmpty, PushRef, Pop, PopOnly, Front, Back, Item, Expand, CopyTo, MakePlaceForNext"]}
{"id": "C02", "title": "Queue removal keeps order and reports truthfully", "statement": "Remove(v) deletes exactly the elements equal to v, RemoveItem(i) deletes exactly the i-th one; all other elements stay in their order; Remove returns true exactly when something was removed.", "quantifier": "every queue content, fill level and physical head position, every value / index", "why_tests_cant": "the in-place compaction depends on the wrap position of the ring and on the queue being exactly full", "anchors": ["base/dabc/Queue.h: Queue::Remove, Queue::RemoveItem"]}
{"id": "C03", "title": "Iterating a Queue visits exactly its items", "statement": "A loop `for (it = q.begin(); it != q.end(); ++it)` visits each element of the queue exactly once in FIFO order and visits nothing for an empty queue.", "quantifier": "every queue content including the empty and the exactly full one, every physical head position", "why_tests_cant": "begin and end are the same address for a full and for an empty ring; the distinguishing flag is only wrong in corner positions", "anchors": ["base/dabc/Queue.h: Queue::Iterator, Queue::begin, Queue::end"]}
{"id": "C04", "title": "Queue Reset gives a usable empty queue", "statement": "After Reset() a queue is empty and behaves like a freshly constructed one for every further sequence of operations.", "quantifier": "every reachable queue state (also after automatic expansion), every construction capacity including the default one", "why_tests_cant": "needs the combination default construction + expansion + reset + reuse", "anchors": ["base/dabc/Queue.h: Queue::Reset, Queue::Allocate, RecordsQueue::PopOnly"]}
{"id": "C05", "title": "Buffer queue of a port is a bounded FIFO", "statement": "PushBuffer on a full queue reports failure and leaves both the queue and the caller's buffer untouched, otherwise it appends; PopBuffer returns buffers in push order; Item(n) shows the n-th oldest one; the number of stored buffers never exceeds the capacity and Cleanup releases every stored buffer exactly once.", "quantifier": "every capacity, every sequence of operations", "why_tests_cant": "ring index arithmetic over all fill levels and positions", "anchors": ["base/src/BuffersQueue.cxx", "base/dabc/BuffersQueue.h: BuffersQueue"]}
{"id": "C06", "title": "Port-to-port transport delivers every buffer once and in order", "statement": "In the blocking configuration the sequence of buffers returned by Recv on the input port is always a prefix of the sequence accepted by Send on the output port (no loss, no duplication, no reordering), at most `capacity` buffers are in flight, and Send never aborts the process when CanSend() was true just before.", "quantifier": "every interleaving of the sending and the receiving thread at the granularity of the queue mutex, every capacity > 0, every signalling mode", "why_tests_cant": "depends on thread schedules", "anchors": ["base/src/LocalTransport.cxx: LocalTransport::Send, Recv", "base/dabc/LocalTransport.h: CanSend, NumCanSend, CanRecv"]}
{"id": "C07", "title": "Non-blocking transport keeps the newest buffers", "statement": "When a port is not allowed to block the sender, Send always succeeds and the queue then holds exactly the `capacity` most recently sent and not yet received buffers, in order; each overwritten buffer is the oldest one.", "quantifier": "every capacity > 0, every interleaving of Send and Recv", "why_tests_cant": "overflow handling depends on history", "anchors": ["base/src/LocalTransport.cxx: LocalTransport::Send", "base/dabc/LocalTransport.h: NumCanSend"]}
{"id": "C08", "title": "No lost wake-up on module ports", "statement": "An asynchronous module that processes all its input whenever it gets an input event never sleeps forever: at every moment, if its input queue is not empty then either an input event for that port is queued in its thread, or the module is just processing that port; symmetrically for a sender waiting for free space.", "quantifier": "every interleaving of sender and receiver threads, every capacity, signal modes confirm and operation, every loop-length limit", "why_tests_cant": "a lost wake-up is a schedule-dependent dead-lock that no finite set of runs can exclude", "anchors": ["base/src/LocalTransport.cxx: Send, Recv, ConfirmEvent", "base/src/ModuleAsync.cxx: ProcessItemEvent, ProcessInputEvent, ProcessOutputEvent"]}
{"id": "C09", "title": "Thread events are delivered exactly once, in order, by priority queue", "statement": "Every event fired into a dabc::Thread is returned by the event loop exactly once; events of the same priority are returned in the order they were fired; the wake-up counter of the thread equals the number of queued events, so the loop never sleeps while an event is queued and never reads from an empty queue.", "quantifier": "every interleaving of firing and event-loop steps, every priority assignment", "why_tests_cant": "schedule dependent; lost or phantom wake-ups are invisible to tests", "anchors": ["base/src/Thread.cxx: Thread::_GetNextEvent, _Fire, WaitEvent, SingleLoop", "base/dabc/Thread.h: Thread::_PushEvent", "base/dabc/threads.h: Condition"]}
{"id": "C10", "title": "Low-priority events are never starved", "statement": "An event that is fired with any priority is returned after a number of event-loop iterations bounded by a constant times its position in its own queue, whatever events are fired with higher priority in the meantime.", "quantifier": "every schedule of concurrently fired higher-priority events, every state of the internal counters", "why_tests_cant": "a liveness bound against an adversarial infinite stream of events", "anchors": ["base/src/Thread.cxx: Thread::_GetNextEvent"]}
{"id": "C11", "title": "Event identifiers round-trip", "statement": "An EventId built from (code, item, argument) returns exactly these three numbers for every 16-bit code, 16-bit item and 32-bit argument, different triples give different ids, and priority/code comparison is not disturbed by the other parts.", "quantifier": "all 2^64 combinations", "why_tests_cant": "too many combinations; off-by-one shifts only show up at the borders", "anchors": ["base/dabc/Thread.h: EventId"]}
{"id": "C12", "title": "Worker time-outs fire neither early nor never", "statement": "A worker time-out activated with a delay is delivered to the worker not before that delay elapsed; it is delivered at the first time-out check after that moment, once, and the period value passed to the worker is the time since the previous delivery or activation; deactivation before delivery suppresses it.", "quantifier": "every sequence of activations, checks and time readings (monotone clock)", "why_tests_cant": "depends on relative timing of activation and check", "anchors": ["base/dabc/Thread.h: TimeoutRec", "base/src/Thread.cxx: Thread::CheckTimeouts"]}
{"id": "C13", "title": "Memory pool never hands out a block twice", "statement": "At any moment each pool block is either in the free list exactly once with reference count 0, or is referenced by exactly as many live buffers/segments as its reference count says; a block handed out is not handed out again before every buffer, duplicate and part referring to it was released; free + used blocks always equals the number of allocated blocks.", "quantifier": "every sequence of TakeBuffer / Duplicate / GetNextPart / Append / CutFromBegin / SetTotalSize / Release on buffers of one pool", "why_tests_cant": "aliasing bugs show up only for particular histories of sharing", "anchors": ["base/src/MemoryPool.cxx: _TakeBuffer, IncreaseSegmRefs, DecreaseSegmRefs", "base/src/Buffer.cxx"]}
{"id": "C14", "title": "TakeBuffer returns the requested size or nothing", "statement": "TakeBuffer(n) for n > 0 returns either a buffer whose total size is exactly n built from distinct free blocks taken in FIFO order, or nothing, in which case the free list is unchanged; it fails only if the free blocks together are smaller than n.", "quantifier": "every pool state with total free memory below 2^32 bytes and every requested size", "why_tests_cant": "splitting over several blocks of different sizes, trimming the last one", "anchors": ["base/src/MemoryPool.cxx: MemoryPool::_TakeBuffer"]}
{"id": "C15", "title": "Buffer cutting and composition act on the byte content", "statement": "On the byte content seen by a user: SetTotalSize(n) keeps the first n bytes, CutFromBegin(n) drops the first n, Append / Prepend / Insert(pos) put the other buffer's bytes at the end / begin / position, Duplicate keeps the content; the total size reported always equals the content length.", "quantifier": "every segmentation of the buffers (any number of segments of any sizes, also empty ones), every size / position argument", "why_tests_cant": "segment splitting has many corner cases (cut exactly at a border, inside, empty segments)", "anchors": ["base/src/Buffer.cxx: SetTotalSize, CutFromBegin, Insert, Append, Prepend, Locate, GetTotalSize"]}
{"id": "C16", "title": "Consecutive parts of a buffer tile it", "statement": "Calling GetNextPart with a sequence of lengths on a buffer returns parts whose bytes are, in order, exactly the next bytes of the source; no byte is skipped, repeated or taken from outside; a part is only delivered if all requested bytes are available.", "quantifier": "every segmentation, every sequence of requested lengths", "why_tests_cant": "segment-border cases", "anchors": ["base/src/Buffer.cxx: Buffer::GetNextPart"]}
{"id": "C17", "title": "Pointer copies see a segmented buffer as one byte string", "statement": "Reading or writing n bytes through a dabc::Pointer at logical position p transfers exactly the bytes [p, p+n) of the buffer's content, wherever segment borders lie, and changes no other byte.", "quantifier": "every segmentation, every position reachable by shifts, every length that fits", "why_tests_cant": "failures need positions exactly at a segment border", "anchors": ["base/dabc/Pointer.h: shift, setfullsize, copyto, copyfrom, distance_to", "base/src/Pointer.cxx: long_shift, copyfrom, copyto"]}
{"id": "C18", "title": "Record fields survive streaming", "statement": "A field of every kind (none, bool, int, datime, uint, double, arrays of them, string, string array, binary buffer) written with Stream and read back gives the same kind and value and consumes exactly the bytes written.", "quantifier": "every value of every kind, any following data in the stream", "why_tests_cant": "value and length dependent padding", "anchors": ["base/src/Record.cxx: RecordField::Stream, iostream::write_str, read_str, verify_size"]}
{"id": "C19", "title": "Predicted storage size equals bytes written", "statement": "The size predicted by the size stream for any record field, field map or record equals the number of bytes the memory stream then writes, and is always a multiple of 8.", "quantifier": "every record content", "why_tests_cant": "padding depends on lengths modulo 8; a mismatch corrupts memory or truncates", "anchors": ["base/src/Record.cxx: RecordField::Stream, RecordFieldsMap::Stream, Record::SaveToBuffer", "base/dabc/Record.h: sizestream, memstream"]}
{"id": "C20", "title": "A record saved to a buffer can always be read back", "statement": "For every record (name plus any set of fields), ReadFromBuffer of the buffer produced by SaveToBuffer succeeds and yields the same fields.", "quantifier": "every field map, in particular whatever field kind comes last in the buffer", "why_tests_cant": "the failure depends on which field ends exactly at the end of the buffer", "anchors": ["base/src/Record.cxx: Record::SaveToBuffer, Record::ReadFromBuffer, RecordFieldsMap::Stream, iostream::read_str"]}
{"id": "C21", "title": "Reading damaged record data never reads outside the stream", "statement": "Whatever bytes are presented to the record reader, it terminates, never reads beyond the given length, and either fails or yields a record.", "quantifier": "every byte string of every length", "why_tests_cant": "arbitrary corrupted inputs", "anchors": ["base/src/Record.cxx: RecordField::Stream, RecordFieldsMap::Stream, iostream::verify_size, skip_object, read_str"]}
{"id": "C22", "title": "Field-map differences reproduce the new state", "statement": "For any two field maps old and new, turning new into a difference against old and applying it to a copy of old gives new again (same fields, same values, removed fields removed).", "quantifier": "every pair of field maps", "why_tests_cant": "all combinations of added, removed, changed and unchanged fields", "anchors": ["base/src/Record.cxx: RecordFieldsMap::MakeAsDiffTo, ApplyDiff"]}
{"id": "C23", "title": "Incremental hierarchy updates reproduce the master", "statement": "If a client holds a copy of a hierarchy at version v and applies the difference the master produces for version v, its copy afterwards has the same items, in the same order, with the same fields as the master, whatever was created, changed or removed in between.", "quantifier": "every tree shape, every history of modifications and version marks, every synchronisation point v", "why_tests_cant": "needs arbitrary edit histories on arbitrary trees", "anchors": ["base/src/Hierarchy.cxx: HierarchyContainer::Stream, MarkVersionIfChanged, GetNextVersion, Hierarchy::SaveToBuffer, UpdateFromBuffer"]}
{"id": "C24", "title": "Hierarchy version marks dominate all changes", "statement": "Versions handed out by a hierarchy never decrease, and after every MarkChangedItems each node whose fields or children changed since version v, and each of its ancestors, reports a version newer than v.", "quantifier": "every tree, every history of modifications and marks", "why_tests_cant": "arbitrary histories", "anchors": ["base/src/Hierarchy.cxx: MarkVersionIfChanged, MarkChangedItems, GetNextVersion, IsNodeChanged, CheckIfDoingHistory"]}
{"id": "C25", "title": "Item history replays past states", "statement": "With history of depth n enabled, the last n states of an item can be reconstructed exactly, newest first, from the recorded differences.", "quantifier": "every history of field changes, every depth n", "why_tests_cant": "depends on history length relative to the ring capacity", "anchors": ["base/src/Hierarchy.cxx: HistoryContainer, AddHistory, ExtractHistoryStep, HistoryIter"]}
{"id": "C26", "title": "Objects live exactly as long as they are referenced", "statement": "An object under automatic destruction is destroyed exactly once, after its last reference is released and never while a reference or a child relation still holds it; a reference obtained while destruction is running is refused.", "quantifier": "every interleaving of acquiring and releasing references and destroy requests", "why_tests_cant": "use-after-free windows depend on the interleaving", "anchors": ["base/src/Object.cxx: IncReference, DecReference, CallDestroyFromThread", "base/src/Reference.cxx"]}
{"id": "C27", "title": "Reference assignment preserves the reference count", "statement": "Assigning, moving, taking and releasing references keeps the count of every object equal to the number of live references to it; assigning a reference to itself changes nothing.", "quantifier": "every sequence of reference operations including self assignment", "why_tests_cant": "aliasing combinations", "anchors": ["base/src/Reference.cxx: operator=, operator<<, Take, Release, SetObject"]}
{"id": "C28", "title": "Reference vectors keep order and identity", "statement": "Add / AddAt / Remove / RemoveAt / ExtractRef / Clear on a references vector act like the corresponding operations on a list of objects, each stored object being referenced exactly once per entry.", "quantifier": "every sequence of operations and indices", "why_tests_cant": "index shifting and capacity growth", "anchors": ["base/src/ReferencesVector.cxx"]}
{"id": "C29", "title": "Every queued command leaves the queue exactly once", "statement": "A command pushed into a worker's command queue is later obtained exactly once by Pop / PopWithId / PopWithKind / Cleanup; the id returned by Push identifies it uniquely while it is queued; commands of one kind are popped in FIFO order.", "quantifier": "every sequence of queue operations with fewer than 2^32 outstanding ids", "why_tests_cant": "history dependent", "anchors": ["base/src/CommandsQueue.cxx"]}
{"id": "C30", "title": "A command is replied to each caller once, innermost first", "statement": "Each caller registered for a command gets exactly one reply unless it was removed before; callers are notified in the reverse order of submission; a caller that refuses passes the reply on to the next one.", "quantifier": "every nesting of callers, every pattern of refusals and removals", "why_tests_cant": "arbitrary nesting depth", "anchors": ["base/src/Command.cxx: Command::AddCaller, RemoveCaller, Reply, Cancel"]}
{"id": "C31", "title": "The result of a replied command is the one replied", "statement": "After Reply(res) the command's GetResult() is res for every result code, in particular the time-out and cancel codes.", "quantifier": "every result code and every previous result stored in the command", "why_tests_cant": "the failing codes are only produced by time-outs and cancellation", "anchors": ["base/src/Command.cxx: Command::Reply, SetResult, GetResult, ReplyTimedout"]}
{"id": "C32", "title": "Command lines are parsed into their arguments", "statement": "Parsing a command string `Name arg1=val1 arg2=\"val 2\" \u2026` gives a command with that name and exactly these argument names and values.", "quantifier": "every name, every list of arguments, quoted and unquoted", "why_tests_cant": "string handling over arbitrary texts", "anchors": ["base/src/Command.cxx: Command::ReadFromCmdString, find_symbol, remove_quotes"]}
{"id": "C33", "title": "Binary files return what was written", "statement": "Reading a DABC binary file returns exactly the buffers written, in order, each with its size and type, and then reports end of file.", "quantifier": "every sequence of buffers of any sizes and types", "why_tests_cant": "sequence and size dependent", "anchors": ["base/dabc/BinaryFile.h: BinaryFile", "base/src/BinaryFileIO.cxx"]}
{"id": "C34", "title": "A crash while writing a binary file loses only the tail", "statement": "If the file is cut at an arbitrary byte, reading it still returns exactly the buffers that were completely on disk and reports an error or end of file instead of wrong data.", "quantifier": "every file content and every cut position", "why_tests_cant": "all crash points", "anchors": ["base/dabc/BinaryFile.h: ReadBufHeader, ReadBufPayload, OpenReading"]}
{"id": "C35", "title": "Item addresses survive compose / decompose", "statement": "Decomposing the item address composed from a node number and an item name gives back the same node and item name; decomposing never invents a node for a malformed address.", "quantifier": "every node number >= 0 and every item name", "why_tests_cant": "arbitrary strings", "anchors": ["base/src/Url.cxx: Url::ComposeItemName, DecomposeItemName, SetUrl"]}
{"id": "C36", "title": "URL options are found by name", "statement": "For a URL with an option list k1=v1&k2&\u2026, GetOption(k) returns the value of the first option named k and the default when it is absent, and one option's value can never be mistaken for another option.", "quantifier": "every option list", "why_tests_cant": "prefix-sharing names, quotes, missing values", "anchors": ["base/src/Url.cxx: Url::GetOption, SetUrl, SetOptions"]}
{"id": "C37", "title": "HADAQ words are independent of byte order", "statement": "For a HADAQ header in either byte order, setting a field and reading it gives the value set and leaves every other field unchanged; a unit converted to the other byte order reads the same.", "quantifier": "all 32-bit values, both byte orders", "why_tests_cant": "2^32 values per field in two byte orders", "anchors": ["plugins/hadaq/hadaq/defines.h: HadTu::Value, SetValue, GetPaddedSize, SetTrigTypeTrb3, SetDataError"]}
{"id": "C38", "title": "HADAQ events written are the events read", "statement": "Iterating with ReadIterator over a buffer filled through WriteIterator returns the same events with the same subevents in the same order and nothing else.", "quantifier": "every list of events with any number of subevents of any raw size", "why_tests_cant": "padding to 8 bytes at every level", "anchors": ["plugins/hadaq/src/Iterator.cxx: ReadIterator, WriteIterator"]}
{"id": "C39", "title": "HADAQ iteration stays inside the buffer", "statement": "Whatever bytes a HADAQ buffer holds, iterating over its units and subevents terminates and every unit and subevent returned lies inside the buffer.", "quantifier": "every byte content", "why_tests_cant": "arbitrary corrupted data from the network", "anchors": ["plugins/hadaq/src/Iterator.cxx: NextHadTu, NextEvent, NextSubEvent"]}
{"id": "C40", "title": "HLD files return the recorded events", "statement": "Reading an HLD file written with OpenWrite / WriteBuffer / Close returns exactly the recorded events in order - one by one or in blocks of any buffer size that can hold the largest event - and stops at the end marker.", "quantifier": "every list of events, every read buffer size", "why_tests_cant": "the position of the buffer end inside an event", "anchors": ["plugins/hadaq/src/HldFile.cxx: HldFile::ReadBuffer, WriteBuffer, OpenRead, Close"]}
{"id": "C41", "title": "Event builder combines exactly matching subevents", "statement": "Each event produced by the HADAQ combiner holds, in input order, one subevent of each input and all of them carry the same trigger number; no subevent is used twice; and when every input delivers increasing trigger numbers, the produced events are exactly the triggers present on all inputs, in order.", "quantifier": "every number of inputs, every data, every interleaving of data arrival and build attempts", "why_tests_cant": "depends on arrival interleaving and on arbitrary gaps in each input", "anchors": ["plugins/hadaq/src/CombinerModule.cxx: BuildEvent, ShiftToNextSubEvent, CalcTrigNumDiff"]}
{"id": "C42", "title": "Event builder marks damaged events", "statement": "A built event has its data-error bit set exactly when one of the contributing subevents has a data error or the trigger tags disagree.", "quantifier": "every combination of subevents", "why_tests_cant": "header field written twice; needs the full field interaction", "anchors": ["plugins/hadaq/src/CombinerModule.cxx: BuildEvent", "plugins/hadaq/hadaq/defines.h: SetDataError, SetId"]}
{"id": "C43", "title": "Trigger distance is the signed cyclic distance", "statement": "The trigger-number difference used for event building is the representative of (next - prev) modulo the trigger range with the smallest absolute value, and is antisymmetric.", "quantifier": "every pair of trigger numbers and every even trigger range up to 2^31", "why_tests_cant": "wrap-around at the range and at 32 bits", "anchors": ["plugins/hadaq/src/CombinerModule.cxx: CalcTrigNumDiff", "plugins/hadaq/hadaq/SorterModule.h: Diff"]}
{"id": "C44", "title": "UDP receiver delivers valid packets only, gap-free", "statement": "A buffer produced by the HADAQ UDP receiver is the concatenation, in arrival order, of the unit parts of exactly those packets whose length and 32-byte trailer are consistent; rejected packets leave no trace.", "quantifier": "every sequence of packets with every content", "why_tests_cant": "arbitrary network input", "anchors": ["plugins/hadaq/src/UdpTransport.cxx: NewAddon::ReadUdp, CloseBuffer"]}
{"id": "C45", "title": "MBS events written are the events read", "statement": "Iterating with mbs::ReadIterator over a buffer filled through mbs::WriteIterator returns the same events and subevents (with even data sizes) in the same order.", "quantifier": "every list of events and subevents", "why_tests_cant": "size bookkeeping in 16-bit words", "anchors": ["plugins/mbs/src/Iterator.cxx", "plugins/mbs/mbs/MbsTypeDefs.h", "plugins/mbs/mbs/LmdTypeDefs.h"]}
{"id": "C46", "title": "Walking MBS subevents finds all of them", "statement": "EventHeader::NextSubEvent / NumSubevents enumerate every subevent of a well-formed event, including subevents without data.", "quantifier": "every well-formed event", "why_tests_cant": "the last subevent being empty", "anchors": ["plugins/mbs/mbs/MbsTypeDefs.h: EventHeader::NextSubEvent", "plugins/mbs/src/MbsTypeDefs.cxx: NumSubevents"]}
{"id": "C47", "title": "LMD files return the recorded events", "statement": "Reading an LMD file in blocks returns whole events only, all of them, in order, for every block size that can hold the largest event.", "quantifier": "every list of events, every block size", "why_tests_cant": "position of block end inside an event", "anchors": ["plugins/mbs/mbs/LmdFile.h: LmdFile::ReadBuffer, WriteBuffer"]}
{"id": "C48", "title": "Slow-control records round-trip", "statement": "SlowControlData::Read of the bytes produced by Write restores event id, time and all named integer and floating values, and Write produces exactly GetRawSize() bytes.", "quantifier": "every set of records with names free of zero bytes", "why_tests_cant": "string packing and alignment", "anchors": ["plugins/mbs/mbs/SlowControlData.h: SlowControlData"]}
{"id": "C49", "title": "Date-time conversions are lossless to the millisecond", "statement": "SetJSDate(AsJSDate()) restores a time to the millisecond for every time; the textual form with n decimals is the correctly rounded time.", "quantifier": "every representable time, every number of decimals 0..9", "why_tests_cant": "rounding carries", "anchors": ["base/src/timing.cxx: DateTime::AsString, AsJSString", "base/dabc/timing.h: DateTime::AsJSDate, SetJSDate"]}
{"id": "C50", "title": "Name masks match as file globs do", "statement": "Object::NameMatch(name, mask) is true exactly when the name matches the mask with '*' = any string and '?' = any character, and always returns.", "quantifier": "every name and mask", "why_tests_cant": "arbitrary strings; back-tracking", "anchors": ["base/src/Object.cxx: Object::NameMatch, NameMatchM"]}
{"id": "C51", "title": "JSON text of a value denotes the value", "statement": "The JSON text produced for a string field is a valid JSON string literal that denotes the field value.", "quantifier": "every string", "why_tests_cant": "control and non-ASCII characters", "anchors": ["base/src/Record.cxx: RecordField::NeedJsonReformat, JsonReformat, AsJson"]}
{"id": "C52", "title": "Acknowledged network transport never overruns the receiver", "statement": "With acknowledges enabled, the number of data packets sent never exceeds the number of receive buffers the other side has posted.", "quantifier": "every schedule of sends, receives and acknowledges, every queue size", "why_tests_cant": "schedule dependent", "anchors": ["base/src/NetworkTransport.cxx: CheckAcknReadyCounter, SubmitAllowedSendOperations, FillRecvQueue, ProcessInputEvent"]}
{"id": "C53", "title": "Multiplexer forwards every buffer once to all outputs", "statement": "The multiplexer module forwards every buffer arriving on any input exactly once to every output, keeping the arrival order, and drops nothing.", "quantifier": "every arrival pattern over all inputs", "why_tests_cant": "interleaving of inputs and full outputs", "anchors": ["base/src/MultiplexerModule.cxx: MultiplexerModule", "base/src/Module.cxx: SendToAllOutputs, CanSendToAllOutputs"]}
{"id": "C54", "title": "Sorter output is ordered", "statement": "Subevents leave the sorter in increasing trigger order and each at most once.", "quantifier": "every arrival order", "why_tests_cant": "arbitrary permutations over buffer borders", "anchors": ["plugins/hadaq/src/SorterModule.cxx: retransmit, RemoveUsedSubevents, DecremntInputIndex"]}
{"id": "C55", "title": "Histogram statistics count every value", "statement": "After filling n values the statistic object reports n entries, their minimum, maximum and mean, and each value inside the range is counted in exactly one bin.", "quantifier": "every sequence of values", "why_tests_cant": "values on bin and range borders", "anchors": ["base/src/statistic.cxx: Average::Fill", "base/dabc/statistic.h: Average"]}
{"id": "C56", "title": "Port numbering stays consistent when ports are removed", "statement": "After any sequence of creating and removing module ports, the index stored in each port equals its position in the module's port list, so events reach the port they were fired for.", "quantifier": "every sequence of port creations and removals", "why_tests_cant": "history dependent", "anchors": ["base/src/Module.cxx: RemoveModuleItem, AddModuleItem"]}
{"id": "C57", "title": "CanSend() guarantees that Send() is safe", "statement": "When CanSend() on an output port returned true, the following Send() by the same thread delivers the buffer and never terminates the process, even when the receiving side gets connected or disconnected in between.", "quantifier": "every interleaving of sender, receiver and connection changes, every capacity > 0, every blocking configuration", "why_tests_cant": "depends on a connection change between two calls", "anchors": ["base/src/LocalTransport.cxx: LocalTransport::Send", "base/dabc/LocalTransport.h: NumCanSend", "base/src/Port.cxx: Port::Send"]}
{"id": "C58", "title": "Restarted modules keep receiving", "statement": "A module that is stopped and started again while its ports stay connected is woken up for every buffer that is in its input queue, as if it had never been stopped.", "quantifier": "every interleaving of sender, receiver, stop and start, every capacity, every signalling mode", "why_tests_cant": "depends on the moment of the stop relative to pending events", "anchors": ["base/src/Module.cxx: Module::ProcessEvent, DoStart, DoStop", "base/src/ModuleAsync.cxx: OnThreadAssigned/DoStart events", "base/src/Port.cxx: NumStartEvents", "base/src/LocalTransport.cxx: Send, ConfirmEvent"]}
{"id": "C59", "title": "Splitting output over files loses nothing", "statement": "With a size limit, a file output spreads the buffers over several files such that reading the files in order returns every buffer exactly once and in order, each file can be read on its own, and no file exceeds the limit unless it holds one buffer larger than the limit.", "quantifier": "every sequence of buffers and every size limit", "why_tests_cant": "depends on where the sum of sizes crosses the limit", "anchors": ["base/src/DataIO.cxx: FileOutput::CheckBufferForNextFile, AccountBuffer, ProduceNewFileName", "base/src/BinaryFileIO.cxx: BinaryFileOutput::Write_Buffer, StartNewFile"]}
{"id": "C60", "title": "MBS iteration stays inside the buffer", "statement": "mbs::ReadIterator over a buffer with arbitrary content never accesses bytes outside, shows only events and subevents inside the buffer (each subevent inside its event), and iterating over everything ends.", "quantifier": "every buffer content, every sequence of NextEvent/NextSubEvent", "why_tests_cant": "malformed sizes at every position", "anchors": ["plugins/mbs/src/Iterator.cxx: ReadIterator::NextEvent, NextSubEvent"]}
{"id": "C61", "title": "A list of LMD files is read completely", "statement": "LmdInput with several files returns the events of all files, in order, then reports the end.", "quantifier": "every list of LMD files", "why_tests_cant": "end of one file and begin of the next in one call", "anchors": ["plugins/mbs/src/LmdInput.cxx: OpenNextFile, Read_Size, Read_Complete"]}
{"id": "C62", "title": "Slow-control data with arbitrary content", "statement": "SlowControlData::Read never accesses bytes outside of the given memory, whatever its content.", "quantifier": "every memory content", "why_tests_cant": "counts and missing string ends in damaged data", "anchors": ["plugins/mbs/mbs/SlowControlData.h: Read"]}
{"id": "C63", "title": "Data accepted by the MBS write iterator is kept", "statement": "What successful calls of NewEvent, NewSubevent, AddRawData have put into a WriteIterator is contained in the buffer returned by Close.", "quantifier": "every sequence of calls, every buffer size", "why_tests_cant": "exact fill of the buffer", "anchors": ["plugins/mbs/src/Iterator.cxx: WriteIterator::Close, AddRawData, FinishSubEvent, FinishEvent"]}
{"id": "C64", "title": "CloseAndTransfer delivers the completed events", "statement": "WriteIterator::CloseAndTransfer returns the buffer with the events completed so far and continues the incomplete event in the new buffer.", "quantifier": "every sequence of completed events, with or without an open event", "why_tests_cant": "only with an open event", "anchors": ["plugins/mbs/src/Iterator.cxx: WriteIterator::CloseAndTransfer"]}
{"id": "C65", "title": "The MBS write iterator stays inside its buffer", "statement": "No call of the mbs::WriteIterator writes outside its buffer.", "quantifier": "every sequence of calls", "why_tests_cant": "little space left in the buffer", "anchors": ["plugins/mbs/src/Iterator.cxx: WriteIterator::NewSubevent2, FinishEvent"]}
{"id": "C66", "title": "A submitted command is executed or cancelled", "statement": "Once Submit accepted a command, its callers are finally answered: the command reaches the worker, is executed, cancelled or answered as refused, and no reply is lost on its way back (guarantee written in Thread.cxx:560).", "quantifier": "every number of workers and commands, every interleaving of submission, nested synchronous calls, replies, cancelling, halting and destruction of workers", "why_tests_cant": "delivery depends on the interleaving of several threads and on the life time of workers", "anchors": ["base/src/Worker.cxx: Submit, ProcessCoreEvent, ProcessCommand, GetCommandReply, ObjectCleanup", "base/src/Thread.cxx: RunCommandInTheThread, CheckWorkerCanBeHalted"]}
{"id": "C67", "title": "A URL is split into its parts", "statement": "Splitting protocol://host:port/file?options gives back exactly these parts, special symbols of the options decoded; splitting ends for every text, and a port that is no number makes the URL invalid.", "quantifier": "every protocol, host, port, file name and option text", "why_tests_cant": "arbitrary strings, any part may be absent or contain the separators of the others", "anchors": ["base/src/Url.cxx: Url::SetUrl, SetOptions, ReplaceSpecialSymbols", "base/src/string.cxx: str_to_int"]}
{"id": "C68", "title": "Dates and times read back from their texts", "statement": "Reading the date text and then the time text of a time into a DateTime gives the same second, as is done for the file names of a stored history.", "quantifier": "every time, every DateTime read into", "why_tests_cant": "arbitrary times, calendar arithmetic", "anchors": ["base/src/timing.cxx: DateTime::OnlyDateAsString, OnlyTimeAsString, SetOnlyDate, SetOnlyTime", "base/src/HierarchyStore.cxx: HierarchyReading::MakeFileName, ScanFiles, ScanTreeDir"]}
{"id": "C69", "title": "Arrays read back from their text", "statement": "The text of an array field (AsStr, or JSON) read as an array again (AsIntVect, AsUIntVect, AsStrVect of a string) gives the same elements, and reading an array ends for every text.", "quantifier": "every array of signed or unsigned integers or strings; every text", "why_tests_cant": "arbitrary strings and array lengths, quoting, white space", "anchors": ["base/src/Record.cxx: RecordField::AsStr, AsJson, StrToStrVect, AsIntVect, AsUIntVect, AsStrVect", "base/src/string.cxx: str_to_lint, str_to_luint"]}
{"id": "C70", "title": "Buffers sent over a stream socket arrive unchanged and in order", "statement": "Whatever buffers and acknowledges are submitted to a network transport over a stream socket, and however the socket splits the byte stream, the receiving transport delivers exactly the same buffers (type and content) and acknowledges in the same order, as long as receive operations are posted.", "quantifier": "for all sequences of submitted messages, posted receive buffers, and sizes of socket writes and reads", "why_tests_cant": "the socket may split the stream at any byte; tests on one machine see only a few splits, and small or empty buffers are rarely sent", "anchors": ["base/src/SocketTransport.cxx:67-224", "base/src/SocketThread.cxx:459-753", "base/src/NetworkTransport.cxx:185-217,362-420"]}
{"id": "C71", "title": "Output transports write all buffers in order and keep the calling rules of the output object", "statement": "Whatever an output object answers and in whichever order input, timeout, call-back, start and stop events come: the buffers leave the port in arrival order; those for which Write_Check agreed are given to Write_Buffer exactly once and in order; Write_Complete follows exactly on a begun write; after closing the object is not used; a willing object gets everything in the port; with the retry option the transport recovers from failures without loss, also when stopped and started.", "quantifier": "every sequence of events, every answer of the output object, every loop length of the port", "why_tests_cant": "answers of the object and the interleaving of call-backs, timeouts and stop requests are unbounded; tests use files and sockets that practically never fail", "anchors": ["base/src/DataTransport.cxx:577-921", "base/dabc/DataTransport.h:146-225", "base/src/Transport.cxx:141-240", "base/src/ModuleAsync.cxx:110-125"]}
{"id": "C72", "title": "Input transports deliver what the input object reads", "statement": "An InputTransport sends every buffer its DataInput object has finished, exactly once and in order; it never calls a missing object; Read_Start gets a buffer taken from the pool that is at least as large as the object asked for; Read_Complete is called only while a buffer begun with Read_Start is outstanding; nothing follows the end-of-file buffer; the process is not ended by the transport.", "quantifier": "for all objects (arbitrary answers, call-backs at any time, extra buffers), pools, receivers acting at any time, queue sizes and blocking modes, loop limits and sequences of events", "why_tests_cant": "The state machine has 16 states, entered by answers of the object, call-backs, timers, pool events, start/stop and reconnection; the interleavings are unbounded and several faults need an event inside a call of the object.", "anchors": ["base/src/DataTransport.cxx:21-573", "base/dabc/DataTransport.h:50-135", "base/src/ModuleAsync.cxx:135-150"]}
{"id": "C73", "title": "Data sent before a port is closed is delivered", "statement": "Buffers a module has sent before it closes its output port are all received by the connected module, in order; the disconnection is noticed only after them.", "quantifier": "for all interleavings of the two threads, queue sizes, signalling kinds, loop lengths, answers of ProcessRecv and configurations of the receiving port", "why_tests_cant": "The loss depends on the order in which input events, re-injected events and the disconnect event reach the receiver and on what its ProcessRecv answered before; tests see a few of the schedules.", "anchors": ["base/src/LocalTransport.cxx:56-139, 277-325", "base/src/Module.cxx:822-930", "base/src/Port.cxx:173-218", "base/src/ModuleAsync.cxx:49-83, 110-125"]}
{"id": "C74", "title": "The MBS event builder joins the events with the same number and loses none", "statement": "Events of several inputs which carry the same number are written as one event, with the subevents of all of them and each event used once; an event is dropped only when an input misses its part (with complete events only) or when its subevent ids clash, and what is written gets sent.", "quantifier": "for all configurations, numbers of inputs, contents of the buffers and interleavings of arriving buffers, calls of BuildEvent, timer events and disconnections", "why_tests_cant": "The selection depends on which numbers are at the inputs when the counter overflows, on full queues, on optional inputs and on the room in the output buffer; tests see a few of the combinations and rarely an overflow.", "anchors": ["plugins/mbs/src/CombinerModule.cxx:130-271", "plugins/mbs/src/CombinerModule.cxx:275-560", "plugins/mbs/mbs/CombinerModule.h:36-115"]}
{"id": "C75", "title": "Configuration variables are replaced by their values", "statement": "In every text of the configuration ${name} is replaced by the value of the variable (command line before file, then built-in ones, then the environment), #${name} by the number of its entries and ${name}# by one entry; the call returns and other text stays as it is.", "quantifier": "for all texts, sets of definitions (nested to any depth), built-in variables, environments and entry indices", "why_tests_cant": "Texts, definitions and environment are unbounded, definitions refer to each other, and the replaced text is scanned again; tests use a few configuration files.", "anchors": ["base/src/ConfigBase.cxx:440-521", "base/src/ConfigBase.cxx:284-290", "base/src/ConfigIO.cxx:123-130"]}
{"id": "C76", "title": "The walk over a tree of objects visits every object once", "statement": "dabc::Iterator visits the top object and then all objects below it, each exactly once, parents before children and children in their order, not deeper than the limit and not below objects where the caller does not go inside; level() and parent() describe the place of the current object; the walk ends and then starts again. Searches built on it (next_cast, IsAnyModuleRunning, the command Print) find what there is.", "quantifier": "for all trees, limits, choices of the caller at every call, and for objects added to the tree during the walk", "why_tests_cant": "Trees, depth and the moments at which other threads change the tree are unbounded; tests use one small tree which does not change.", "anchors": ["base/src/Iterator.cxx:44-94", "base/dabc/Iterator.h:59-67", "base/src/Manager.cxx:684-694", "base/src/Manager.cxx:1192-1202"]}
{"id": "C77", "title": "Objects are found by their names", "statement": "A path is followed part by part from the object (or, with a slash in front, from the top object), with . and .. and repeated slashes, to the child of that name; when creation is asked for, missing objects are created and nothing else changes; the item name of every object leads back to it, and an object created with a path as name is found by this path.", "quantifier": "for all trees of objects, all names and paths, all starting objects", "why_tests_cant": "Trees and texts are unbounded and every combination of dots and slashes is possible; tests use a few names.", "anchors": ["base/src/Object.cxx:735-811", "base/src/Object.cxx:934-972", "base/src/Object.cxx:1061-1085", "base/src/Manager.cxx:697-711", "base/src/Manager.cxx:746-754"]}
{"id": "C78", "title": "What the configuration file says about an object is found", "statement": "The search in the configuration file ends, never leaves the file, and gives the value of the first place which belongs to the object and has the item: first the places below the selected context where the names on the whole way agree exactly, then all places of the file which agree with wildcards, in the order of the file. For a record the fields of all places are put together and the first one wins. Comments do not matter, and a place with exact names wins over one with wildcards.", "quantifier": "for all configuration files, all objects with their parents, all item names, any wildcard comparison and any replacement of variables", "why_tests_cant": "The search goes back and forth in a tree of any shape with two cursors; tests use a few small files.", "anchors": ["base/src/ConfigIO.cxx:42-97", "base/src/ConfigIO.cxx:99-121", "base/src/ConfigIO.cxx:132-292", "base/src/Worker.cxx:608-618", "base/src/Module.cxx:516-528", "base/src/Application.cxx:435-444", "base/src/Manager.cxx:1880-1893", "base/src/XmlEngine.cxx:906-930"]}
{"id": "C79", "title": "A hierarchy updated from a newly built one shows what that one showed, and its readers follow", "statement": "After Update a hierarchy shows the same items in the same order with the same fields as the source of the update; the result tells whether anything changed, each change counts the version up by one and an update with the same content changes nothing; a reader which was up to date with the previous version shows the new content after a transfer of the differences; the source stays as it was.", "quantifier": "for all hierarchies of any depth and width used as sources, built by any creating and removing of items and fields, and all sequences of updates", "why_tests_cant": "Items may disappear, come back and change places at any level between two updates; tests use a few trees and fields of simple types.", "anchors": ["base/src/Hierarchy.cxx:476-553", "base/src/Hierarchy.cxx:441-450", "base/src/Hierarchy.cxx:802-819", "base/src/Record.cxx:1550-1568", "base/src/Record.cxx:1030-1048", "plugins/root/src/Monitor.cxx:286-294"]}
{"id": "C80", "title": "The XML parser gives the nodes, attributes and texts which the file describes", "statement": "For every configuration file which is XML of the kinds used here (elements, processing instructions, comments, a text at the begin of an element, attributes in double quotes), ParseFile gives the nodes with their names, attributes, unpacked texts, nesting and order, whatever white space is between them and wherever the borders of the input buffer fall; the root element is the first element of the file; for every other content parsing ends with success or a failure, without undefined behaviour, and closing tags which do not match are refused.", "quantifier": "for all files of any length, nesting, number of nodes, attributes and white space; for all byte sequences without zero bytes as regards ending", "why_tests_cant": "Buffer borders and reallocations can fall inside any token, which needs files above 100000 bytes with tokens at particular places; nesting and white space are unbounded.", "anchors": ["base/src/XmlEngine.cxx:147-391", "base/src/XmlEngine.cxx:1062-1132", "base/src/XmlEngine.cxx:1299-1329", "base/src/XmlEngine.cxx:1453-1637", "base/src/XmlEngine.cxx:893-914", "base/src/ConfigBase.cxx:103-118", "base/src/ConfigBase.cxx:284-290"]}
{"id": "C81", "title": "Data sent by an MBS server arrive at the client complete, in order and packet by packet", "statement": "For both kinds of server, with and without events iterator, and for every order in which send completions, requests, call-backs, timers and received bytes are processed on both sides: neither side fails, the client delivers exactly the packets of the buffers given to the server, unchanged and in their order (with iterator one numbered MBS event around each event), nothing is lost when both sides have come to rest, rest is always reached, and a stream server sends one packet for each request.", "quantifier": "for all sequences of events of both sides, all numbers, sizes and contents of buffers and events which fit the limit of 4 MB and have an even size", "why_tests_cant": "The order of requests, send completions and call-backs of two programs depends on the network; a lost call-back or an extra request shows only in particular interleavings.", "anchors": ["plugins/mbs/src/ServerTransport.cxx:45-66", "plugins/mbs/src/ServerTransport.cxx:75-274", "plugins/mbs/src/ClientTransport.cxx:61-173", "plugins/mbs/src/ClientTransport.cxx:194-400", "plugins/mbs/src/MbsTypeDefs.cxx:122-175", "base/src/DataTransport.cxx:704-906"]}
{"id": "C82", "title": "Numbered output files are never written twice and are read in the order of their numbers", "statement": "An output which writes numbered files chooses at the start a number such that neither this number nor any larger one belongs to a file which is there; over any sequence of starts with any start numbers and any numbers of files all files have different names and files which were there stay; the start succeeds with the number behind the last file or the one asked for; and an input with the mask of the output reads files with numbers below 10000 in the order of their numbers.", "quantifier": "for all names and extensions of outputs without bracket expression which are not hidden, all contents of the directory, all start numbers below the limit of int, all sequences of starts", "why_tests_cant": "Whether a file is overwritten depends on the files left in a directory by all earlier runs and on their numbers; a wrong search loses data without any message.", "anchors": ["base/src/DataIO.cxx:211-274", "base/src/DataIO.cxx:125-165", "base/src/BinaryFile.cxx:60-110", "plugins/mbs/src/LmdOutput.cxx:51-73"]}
{"id": "C83", "title": "Commands for another node are executed there once and answered once with their own result", "statement": "For every order of submissions, sends, receptions, executions, deadlines and timers at both ends of a connection: a command is executed at the other node at most once, with its arguments and in the order of submission; its caller gets at most one answer, which is the result of its own execution, or a time-out if its deadline has passed; when both ends have come to rest every command has its answer, and rest is always reached. For the connecting node the first claims hold also over breaks of the connection.", "quantifier": "for all sequences of events at both ends, all numbers of commands below 2^32 in both directions, all arguments and results", "why_tests_cant": "Requests and replies of both directions share one queue and one socket; a reply with a wrong number, or a lost command, shows only in particular interleavings of both nodes and with breaks of the connection.", "anchors": ["base/src/SocketCommandChannel.cxx:109-182", "base/src/SocketCommandChannel.cxx:210-308", "base/src/SocketCommandChannel.cxx:311-321", "base/src/SocketCommandChannel.cxx:416-520", "base/src/CommandsQueue.cxx:14-126"]}
{"id": "C84", "title": "Packets between nodes come out as sent, and the receiver stays within what it has received", "statement": "Every sequence of commands and replies with raw data which is sent over a connection is given on by the receiver unchanged and in order, whatever it received before. For every stream of bytes the receiver does not read outside of its buffer, always comes to an end, and gives on only bytes of the packet just received; nothing is taken behind a foreign header, and a connection request is handed over as it came.", "quantifier": "for all sequences of messages, all byte streams, all former states of the receiver", "why_tests_cant": "The sizes in the header come from the network; which combinations lead outside of the buffer or into an endless loop depends on 32-bit values and on what was received before.", "anchors": ["base/src/SocketCommandChannel.cxx:81-107", "base/src/SocketCommandChannel.cxx:210-295", "base/src/SocketCommandChannel.cxx:323-398", "base/src/SocketCommandChannel.cxx:432-493"]}
{"id": "C85", "title": "A connection ordered at a socket device is answered once, gets the socket which named it, and its record is not used after its end", "statement": "For every order of connection orders, accepted and connected sockets, requests, replies, broken sockets and expired orders: each order is answered exactly once or still waits; success is answered exactly for the orders which got a transport, one for each, with the socket of the protocol which named its id; no record is used after it was deleted; the id in a request is read as it was written.", "quantifier": "for all sequences of events at a device, all ids and request messages", "why_tests_cant": "Records are referenced by protocols which end later than the record; the wrong order of time-out, broken socket and second request is rare, and use of freed memory is often not visible.", "anchors": ["base/src/SocketDevice.cxx:73-183", "base/src/SocketDevice.cxx:255-320", "base/src/SocketDevice.cxx:404-474", "base/src/SocketDevice.cxx:482-564"]}
{"id": "C86", "title": "All places of a text are replaced once, and the ends of a list of connections get their names and numbers", "statement": "Replacement in any text ends, also when the new text contains the old one, and gives the text in which every place of the match, taken from the left without overlap, stands replaced and nothing else changed; in the default application the ends of each connection of a list are the template with the name of the entry and its number at the marks, and ends with different numbers are different.", "quantifier": "for all texts, matches and replacements; all templates, names and numbers", "why_tests_cant": "A replacement which contains the match is the case in which a wrong position loops for ever or replaces twice; tests use the few templates of the examples.", "anchors": ["base/src/string.cxx:237-251", "base/src/Application.cxx:351-364"]}
