# Formal model of DABC: design

The code under study is the C++ source in `/repo` (DABC, the data acquisition
backbone core).  It is read as text and never built or run.  The model is a set
of executable Gallina functions in `rocq/theories`, written function by
function after the C++ code; every definition cites the file and lines it was
read from.  The theorems are about that model.

## Layout

For every area `X` there are up to four files:

| file          | content                                                            |
|---------------|--------------------------------------------------------------------|
| `XModel.v`    | executable model of the C++ functions; no proofs                   |
| `XSpec.v`     | small independent specification (lists, maps, byte strings)        |
| `XProofs.v`   | lemmas                                                             |
| `XProps.v`    | the property theorems with their last proof steps, each followed by `Print Assumptions`, with `Example`s showing that the hypotheses can be met |

(`XSpec.v` is merged into `XProps.v`/`XModel.v` where it is only a line or two.)

Conventions

* C++ undefined behaviour (null dereference, out-of-bounds access, unsigned
  underflow of a size used as an index, reading an uninitialised value) is a
  distinct outcome (`UB`, or `None` where stated) of the model.
* `uint32_t` / `uint64_t` arithmetic is written with an explicit `mod 2^32` /
  `mod 2^64` wherever the property depends on wrap-around; sizes of in-memory
  containers are unbounded `nat` otherwise (trusted: no container reaches
  2^32 entries).
* Mutex-protected sections are atomic steps; a thread schedule is a list of
  such steps.  This relies on the mutexes being used as the code says
  (trusted) and on sequential consistency of locked data.
* A statement that is false of the code is proved as `..._refuted` with a
  concrete witness; the strongest true version is proved next to it and named
  `..._partial` when it covers less than the property.

## Trusted base

* Coq 8.16.1's kernel (and `coqchk`), the standard library.
* `Print Assumptions` output under each theorem: see section "Assumptions" at
  the end (kept current with the build).
* The reading of the C++ code: nothing ties the model to the code but the
  citations.
* Environment assumptions named per property below (memory allocation
  succeeds, `fread`/`fwrite` of the C library, monotone clock, ...).

## Per property plan

| id  | what is modelled | how it is proved |
|-----|------------------|------------------|
| C01 | `Queue<T>`: ring with head/tail/size/capacity, expansion | refinement to `list` over op sequences |
| C02 | `Remove`, `RemoveItem` (in-place compaction) | equals `filter` / list deletion; return value of `Remove` refuted for a full queue of equal elements |
| C03 | `Iterator`, `begin`, `end` | for non-empty queues the visited sequence is the content; refuted for the empty queue |
| C04 | `Reset`, `Allocate` | proved when the construction capacity is > 0; refuted for default construction |
| C05 | `BuffersQueue` | refinement to bounded list |
| C06 | `LocalTransport::Send/Recv` as atomic steps | invariant over all schedules |
| C07 | same, non-blocking branch | refinement to "last capacity elements" |
| C08 | signalling state machine + `ModuleAsync` loop | invariant over all schedules |
| C09 | `Thread` event queues + `Condition` counter | refinement to per-priority lists over schedules |
| C10 | `_GetNextEvent` with its scalers | bounded-waiting theorem against every firing schedule |
| C11 | `EventId` packing | arithmetic identities on `N` |
| C12 | `TimeoutRec`, `CheckTimeouts` | invariant over op sequences |
| C13 | pool blocks, free list, reference counts, buffers as segment lists | counting invariant over op sequences |
| C14 | `_TakeBuffer` | direct proof |
| C15 | segment list operations | content function to byte list, each op an equation |
| C16 | `GetNextPart` | content equations, induction on the list of lengths |
| C17 | `Pointer` | content equations; refuted at segment borders |
| C18 | field codec on byte lists | round trip for all kinds but buffer; buffer refuted |
| C19 | size stream and memory stream | equality by induction |
| C20 | map and record codec | round trip without buffer fields, into new and existing records; refuted for buffer fields |
| C21 | reader on arbitrary bytes | totality plus bound on bytes read, up to one zero byte behind the stream; refuted without it |
| C22 | `MakeAsDiffTo`, `ApplyDiff` | map extensionality given correct modification flags; refuted otherwise |
| C23 | HierModel.v: items as trees with field maps, versions and flags; hier_body/save_hier (Stream output, StoreSize, SaveToBuffer), hier_in/update_from (Stream input, UpdateFromBuffer), all edits hop | HierInv.v: invariant relating every item to what an earlier copy shows at its place, kept by every edit; HierStream.v: exact bytes and their reading; HierSync.v: what is not sent did not change; refutations by computation |
| C24 | mark_own/mark_tree/mark_at (MarkVersionIfChanged, MarkChangedItems, GetNextVersion) | the same invariant with all fields; the marked item and all below have nothing pending; versions of sub-items do not exceed those above |
| C25 | record_history, add_history, make_diff/apply_diff, extract_step, iter_next | HierHist.v: invariant: each stored difference leads from a state to the one before; reading by induction over the stored differences |
| C26 | reference counting state machine | invariant over schedules |
| C27 | `Reference` operations on a heap of counts | counting invariant; self assignment refuted |
| C28 | `ReferencesVector` | refinement to lists |
| C29 | `CommandsQueue` (CmdModel) | lists of commands; every operation refines insertion/removal in a list, references counted |
| C30 | caller stack of a command, `Reply` (CmdModel) | trace theorem: callers answered once, last one first |
| C31 | `Reply`/`GetResult` | refuted for negative codes, proved for others |
| C32 | command line parser `ReadFromCmdString` (CmdStrModel) | characterisation of well-formed lines; refuted: name cut, argument lost |
| C33 | file writer and reader on byte lists | round trip |
| C34 | same, every prefix of the file | prefix theorem |
| C35 | `Url::ComposeItemName`/`DecomposeItemName` (UrlModel) | round trip under exact side conditions; refuted outside |
| C36 | `UrlOptions` scanner (UrlModel) | first value of an option list; refuted for escapes and encoded quotes |
| C37 | header words | arithmetic on `N` |
| C38 | write / read iterators on bytes | round trip |
| C39 | read iterators on arbitrary bytes | termination and bounds |
| C40 | file reader with a position | one-by-one: proved; blocks: proved for aligned sizes, refuted otherwise |
| C41 | BuildEvent with its shift, align, drop, prepare and advance steps over input queues; output buffer by the byte-level write iterator; TRB2 number correction; both levels of event building; ports, pool and clocks are inputs of each call | invariant over schedules for groups; byte invariant for sent and current buffers; lanes invariant (done, current, left per input) gives the intersection of the streams; measure for liveness; computed witnesses for the refuted parts |
| C42 | order of SetDataError and SetId in put_event; error counters | refuted by a computed run; the value written is characterised; counters by invariant |
| C43 | `CalcTrigNumDiff` with 32-bit wrap | arithmetic |
| C44 | UdpTransport.cxx: NewAddon (ReadUdp, CloseBuffer), NewTransport (AssignNewBuffer, BufferReady, FlushBuffer, ProcessSend, ProcessBuffer, start, stop, timers) with real buffer memory; simplified: one segment per buffer, artificial loss and fReduce as arbitrary choices | invariant over all event sequences: queue = filled buffers ++ current ++ free, content = groups of consistent datagrams; judge_spec for the header test in uint32/int arithmetic; witnesses for the failures |
| C45 | MBS iterators | round trip |
| C46 | `NextSubEvent` | refuted for an empty last subevent, proved otherwise |
| C47 | LMD reader | block theorem |
| C48 | slow control codec | round trip; reading arbitrary bytes may leave the buffer (refuted) |
| C49 | `DateTime` (DateModel), civil calendar by year and month search | round trip, calendar independent of the model; rounding refuted |
| C50 | `NameMatch`, `NameMatchM` (NameModel), fnmatch as back-tracking matcher | equivalence with an inductive matching relation; refuted for empty names and semicolons |
| C51 | `AsJson`, `JsonReformat` (JsonModel) | independent JSON reader in the specification, its result is the value; refuted for non-ASCII and buffers |
| C52 | NetworkTransport.cxx: constructor (capacities, records), TakeRec, ReleaseRec, FillRecvQueue, CheckAcknReadyCounter, SubmitAllowedSendOperations, ProcessSendCompl, ProcessRecvCompl, ProcessInputEvent; two nodes, network keeps order, packets wait until a receive is posted. Not modelled: headers and inline data, EOL, network errors, cleanup, counter overflow | invariant of one node (records = posted + sending + waiting, each once), relation between the two nodes for each direction (credits, receives, data), kept by every event; refutations by runs, two of them unbounded by periodic runs |
| C53 | MultiplexerModule with any number of inputs and outputs over the LocalTransport model; every locked section, FireEvent and event extraction is one step; stop and start; unconnected ports not modelled | invariant over all action lists: per-input token count (events + queue ids = waiting buffers), signal state of each output, forwarded list; order by merge of per-input prefixes; start and stop cases refuted by witnesses |
| C54 | SorterModule: Diff, SubsComp, DecremntInputIndex, RemoveUsedSubevents, retransmit, ProcessTimerEvent; std::sort by its standard contract (undefined if the comparison is no strict weak ordering); queue fill, CanSend, pool as inputs of each call | invariant over all runs (records, order of hand over, multiset of what is kept and sent); second invariant with logical labels for completeness; measure for progress; witnesses for what is false |
| C55 | dabc::Average (statistic.cxx/h) over an abstract arithmetic: exact Q and SpecFloat binary64 (HistModel.v); not Show/ShowHist, no counter overflow | invariants over any operation list; rounding lemmas for lrint; refutations by computation with doubles |
| C56 | Module.cxx create/remove items (five lists), FindItem, ~ModuleItem, Destroy, produce/dispatch of item events (ItemsModel.v) | refinement to numbered lists for safe sequences; invariant `one item too large` for all create/delete sequences; five refutations |
| C57 | `LocalTransport` with connection changes | invariant when both blocking flags agree; refuted otherwise |
| C58 | C08 model with Stop/Start actions | invariant for modes other than confirm; refuted for confirm |
| C59 | BinFileModel: start_file, next_file, output_buffer | induction over the buffers with the current file as invariant; refutation for the size on disk |
| C60 | MbsModel.v read iterator on arbitrary bytes (`r_run`) | invariant over all call sequences (MbsBounds.v); termination measure; size-0 event refuted |
| C61 | MbsModel.v LmdInput (`open_next`, `read_complete`) | computation, refuted |
| C62 | SlowModel.v `s_read` | computation, refuted |
| C63 | MbsModel.v write iterator | computation, refuted; true part in C45 |
| C64 | MbsModel.v `close_transfer` | from write_all when no event is open; refuted otherwise |
| C65 | MbsModel.v `new_sub2` | computation, refuted |
| C66 | CmdModel.v: system of workers, queues, events, callers | invariant of all schedules (CmdProofs.v), decreasing measure (CmdWork.v); refuted for destroyed workers |
| C67 | Url::SetUrl step by step, ReplaceSpecialSymbols loops with explicit fuel, str_to_int with sscanf as undefined behaviour on overflow | lemmas on find; decoding by induction over the symbols still encoded; refutation by computation |
| C68 | SetOnlyDate, SetOnlyTime, OnlyDateAsString, OnlyTimeAsString with libc calendar functions | calendar proved against year and month lengths; scanning lemmas for two and four digits |
| C69 | `AsStr`/`AsJson` of arrays, `StrToStrVect`, `str_to_lint`/`str_to_luint` | round trip by induction over the elements; refuted for escaped strings |
| C70 | SockModel.v: PackHeader, submit/complete of send and receive, the iovec loops of SocketIOAddon, header parsing; the socket is a byte queue | invariant: bytes received so far, bytes in the socket and bytes still to be sent are together the packets not yet delivered; stuck states have delivered all; refuted by short, empty and null buffers and an empty last segment |
| C71 | OutputTransport state machine (DataTransport.cxx:577-921) with ChangeState, Start/StopTransport, CloseOnError, ProcessRecv, timer and call-back events; object answers are arbitrary functions of the history (`OutTrModel.v`) | Table of state and phase of the calling rules as invariant over all events; taken ++ waiting = arrived; a second invariant for running flag, stop request and timeout (`OutTrStop.v`); induction on the queue for progress; counterexamples by computation and an invariant for the stuck state (`OutTrProofs.v`, `OutTrProps.v`) |
| C72 | InputTransport with ModuleAsync::ProcessOutputEvent, timer, pool events, start/stop; object, pool and receiver arbitrary functions of the history (`InTrModel.v`) | invariants over event sequences: balance of finished and sent data with the exit and end-of-file clauses (`InTrProofs.v`), size and outstanding-buffer clauses per state (`InTrRules.v`), running flag, stop request, timeout (`InTrStop.v`), grammar of the log with the state it belongs to (`InTrCalls.v`), places in the queue against buffers in work (`InTrRoom.v`), induction on free slots for progress (`InTrProgress.v`), witnesses computed for the refuted parts |
| C73 | LocalTransport (Send, Recv, ConfirmEvent, Disconnect, CleanupQueue), the event queue and event loop of the receiving module, TryNextReconnect, automatic stop; two threads, every locked section one step (`CloseModel.v`) | balance of sent, received, queued and thrown away buffers; for a receiver that takes what it finds an invariant linking the signal state, the events on their way, the loop counter and the queue size, so that the queue is empty when the disconnect event is taken; weight function for the number of steps (`CloseProofs.v`); witnesses computed for the refuted parts |
| C74 | mbs::CombinerModule: ShiftToNextBuffer, ShiftToNextEvent, BuildEvent, FlushBuffer and the flush timer, over read iterators which deliver lists of events (C45) and a write iterator given by the events written and the room left; time, pool and state of the outputs are inputs (`MCombModel.v`) | invariant linking received, used and waiting events, the groups made and the events written (`MCombProofs.v`, `MCombGroups.v`); for steady numbers an invariant that the numbers at the inputs stay within half of the range and that what left one input was built or is gone for another (`MCombJoin.v`, `MCombRun.v`); balance for special events and inputs without numbers (`MCombKept.v`); sending and room (`MCombSend.v`); progress (`MCombProgress.v`); witnesses computed for the refuted parts, the stuck one with an invariant over all continuations |
| C75 | ConfigBase::ResolveEnv with GetNodeValue and FindChild, ConfigIO::ResolveEnv; variables as lists of names and texts, environment as a function, [Loop] when the fuel does not suffice (`CfgVarModel.v`) | a text is given by its parts, its meaning by a separate specification (`CfgVarSpec.v`); induction over the parts with the expanded text in front, induction over the rank of the variables, monotony in the fuel; number of $ as measure for arbitrary texts (`CfgVarProofs.v`); endless runs by induction over the fuel |
| C76 | dabc::Iterator next, level, parent, next_cast; IsAnyModuleRunning and the command Print; objects are numbers, the children a function which may change from call to call (`WalkModel.v`) | order of the document and right walks as separate relations over places (`WalkSpec.v`); induction over the place from its end for the loop which goes up; the iterator stands at a place, kept under growth; walks are inverted for whole passes (`WalkProofs.v`) |
| C77 | Object::SearchForChild / FindChildRef, IsName, FindObject, AddChildAt (at the end), FillFullName, IsParent, ItemName, MakePair and the constructors; Manager::FillItemName, FindItem for local names (`PathModel.v`) | separate specification: parts of a path, one step per part, order of children (`PathSpec.v`); one lemma turns the character tests into a case distinction over the first part; induction over the length of the text; growth of the set of objects as a relation under which everything found stays found (`PathProofs.v`) |
| C78 | ConfigIO::FindItem, CheckAttr, GetObjParent, FindSubItem, ReadRecordField; Find of Object, Worker, Module, Device, MemoryPool, thread worker, Application, Manager; Xml::GetChild / GetNext / GetParent / GetAttr (`CSearchModel.v`) | the two cursors are ways in the tree; the places of an object are a nested list over the children (`CSearchSpec.v`), with no cursor and no going back; every Find is the first child from an index on which fits; induction over the levels and, inside, over the children left (`CSearchProofs.v`) |
| C79 | HierarchyContainer::UpdateHierarchyFrom, SetModified, RecordFieldsMap::MoveFrom, Hierarchy::Update (`HUpdModel.v`) on the items, marks and streams of `HierModel.v` | the content of source and target as trees (`HierSpec.v`, `HUpdSpec.v`); the fields after MoveFrom are those of the source, in order (`HUpdProofs.v`); content, and no report without change, by induction over the source (`HUpdTree.v`); marking gives the same result as for an update which sets no flag for changes below (`HUpdSync.v`); the copy of a reader is related to the master position by position, in the way the reader walks (`HUpdCopy.v`) |
| C80 | XmlInputStream for files, ParseFile, ParseStream, ReadNode, UnpackSpecialCharacters, DocGetRootElement, GetNodeContent of XmlEngine.cxx (`XmlModel.v`), with positions in the buffer, moving and reallocation of it | documents as a relation between nodes and text (`XmlSpec.v`); each function on the stream does on the buffer what a plain function does on the remaining text, by an invariant which keeps a quarter of the buffer filled ahead (`XmlStream.v`); nodes by mutual induction over the relation (`XmlProofs.v`); ending, for every text, by the length of what is left (`XmlTotal.v`) |
| C81 | ServerOutputAddon of ServerTransport.cxx with the OutputTransport calling it, ClientTransport.cxx with the InputTransport calling it, the buffer, event and subevent headers, and the byte stream and requests between them (`SrvModel.v`) | packets as a list of byte sequences from the buffers (`SrvSpec.v`); an invariant splits bytes on the way and bytes still to be sent into packets and counts requests, packets and states of both sides (`SrvProofs.v`); a measure which each change makes smaller, and an analysis of the states in which nothing changes (`SrvLive.v`) |
| C82 | Write_Init, ProduceFileName and ProduceNewFileName of `FileOutput`, fmatch of `FileInterface`, the starts of an output with the files it creates (`FnumModel.v`) | names with numbers, order of texts and hidden names (`FnumSpec.v`); the mask matches every file of the output, the number at the end of the name is read back, the maximum bounds all of them; sorted permutations are unique, numbers with four digits are ordered like texts (`FnumProofs.v`, `FnumProps.v`) |
| C83 | `SocketCommandClient` on both ends of a connection: send queue, queue of waiting commands with its numbers, packets of both directions, executed commands, deadlines, timer, break and renewal of the connection (`RcmdModel.v`) | events and what is submitted (`RcmdSpec.v`); an invariant for each direction: numbers are given once, every packet, executed command and reply carries a number with its command, each command is in one place (`RcmdProofs.v`); a second one says that every waiting command is somewhere on its way, a measure becomes smaller with each event which goes on (`RcmdLive.v`) |
| C84 | `SocketCommandClient`: header and data of a packet as written by `SendCommand`, the states of the receiver, `EnsureRecvBuffer` and the buffer with unwritten cells, `ProcessRecvPacket` up to the bytes given on (`RpktModel.v`) | messages and what stands in a stream (`RpktSpec.v`); an operation of the receiver is completed by its last byte; round trip by induction over the messages, safety by an invariant which ties the bytes received to the end of the stream read so far (`RpktProofs.v`) |
| C85 | `SocketDevice` and `SocketProtocolAddon`: records of ordered connections, protocols of servers and clients with their pointer to a record, request message with its unwritten byte, completion, errors, expiry (`SdevModel.v`) | events (`SdevSpec.v`); invariant over all events: orders are the waiting and the answered ones, every pointer of a protocol comes from a request or connection with the id of its record, transports are the successes; a second invariant for careful runs: pointers are alive and not shared (`SdevProofs.v`) |
| C86 | `replace_all` with find, erase and insert, and the ends of connection lists in the default application (`ReplModel.v`) | replacement as a relation on texts (`ReplSpec.v`); induction over the rest of the text behind the last place; the relation is a function, so results for templates are built from it (`ReplProofs.v`) |

## What is modelled, file by file

Head comments of the model files; simplifications of single functions are noted beside their definitions.

* **BinFileModel.v** (BinaryFile.h, BinaryFileIO.cxx, DataIO.cxx, DataIO.h): Model of base/dabc/BinaryFile.h (BinaryFile over the C library FILE functions), base/src/BinaryFileIO.cxx (BinaryFileInput, BinaryFileOutput) and of the file splitting in base/src/DataIO.cxx (FileOutput).
* **BufferModel.v** (Buffer.cxx, Buffer.h, Pointer.cxx, Pointer.h): Model of dabc::MemSegment lists and dabc::Pointer: /repo/base/dabc/Buffer.h, /repo/base/src/Buffer.cxx, /repo/base/dabc/Pointer.h, /repo/base/src/Pointer.cxx. Simplifications: sizes are unbounded numbers (trusted: no buffer reaches 2^32 bytes); unsigned underflow of a size and the end of the process by an exception leaving a throw() function are the outcome UB.
* **CSearchModel.v** (Application.cxx, ConfigBase.cxx, ConfigIO.cxx, ConfigIO.h, Configuration.cxx, Device.cxx, Manager.cxx, MemoryPool.cxx, Module.cxx, Object.cxx, Thread.cxx, Worker.cxx, XmlEngine.cxx): The search for the nodes of an object in the configuration file (base/src/ConfigIO.cxx). XML nodes are given by their way from the root node (innermost index first), so that GetChild / GetNext / GetParent (base/src/XmlEngine.cxx:906-930) are moves; a move away from the root node (its parent, its siblings) is [UB], it would leave the file. Strings contain no zero bytes. Simplified: a name space attribute is listed like the others (Xml::GetFirstAttr, XmlEngine.cxx:518-529); fnmatch and the replacement of variables are any functions.
* **CfgVarModel.v** (ConfigBase.cxx, ConfigIO.cxx): dabc::ConfigBase::ResolveEnv, base/src/ConfigBase.cxx:440-521, with GetNodeValue 284-290, FindChild 181-190, and ConfigIO::ResolveEnv, ConfigIO.cxx:123-130. The XML nodes with the variables are given by their names and texts (attribute "value" or content); strings are lists of bytes. [Loop]: the fuel does not suffice - for every fuel if the code does not return (endless loop or recursion). Not modelled: the error output, zero bytes inside a name.
* **CloseModel.v** (LocalTransport.cxx, LocalTransport.h, Module.cxx, ModuleAsync.cxx, Port.cxx, Worker.h): A sending module closes its connection: dabc::LocalTransport::Disconnect (/repo/base/src/LocalTransport.cxx:277-321), dabc::Module::ProcessEvent (/repo/base/src/Module.cxx:822-930), dabc::Port::TryNextReconnect (/repo/base/src/Port.cxx:194-218) and the loop of dabc::ModuleAsync::ProcessInputEvent (/repo/base/src/ModuleAsync.cxx:49-83, 110-125). The queue itself is the one of TransportModel.v. Two threads. Every mutex-protected section, every FireEvent and every event extraction is one step. The sender sends and closes whenever it likes. The receiver's ProcessRecv takes one buffer; a function of the buffers received so far says what it returns. Events fired to the sender by Recv are left out, since the sender acts at any moment anyway. All events of this port have the priority of the receiving worker (Worker.h:347-353, 508), so they wait in one queue, oldest first (property C09).
* **CmdModel.v** (Command.cxx, Command.h, CommandsQueue.cxx, Thread.cxx, Worker.cxx): Commands on their way between workers: callers of a command, Submit, Assign, synchronous execution, processing of the two command events, replies, halting and cleanup of workers (Command.cxx, Worker.cxx, Thread.cxx). One step is one section under a mutex or one call of user code. Commands and workers are numbers. Not modelled: direct execution by a worker without thread (Worker.cxx:857-863), workers given as null pointer to AddCaller, time-outs as such (a synchronous call may give up at any moment), arguments of commands.
* **CmdQModel.v** (CommandsQueue.cxx, CommandsQueue.h): CommandsQueue, CommandsQueue.cxx. A command is known by its object. Not modelled: null commands pushed into the queue, Front, FrontKind.
* **CmdStrModel.v** (Command.cxx): Command::ReadFromCmdString, Command.cxx:261-331. int narg does not overflow (a line has fewer than 2^31 arguments). The result is the command, None when false is returned.
* **CombModel.v** (CombinerModule.cxx, CombinerModule.h): hadaq::CombinerModule, plugins/hadaq/src/CombinerModule.cxx. Modelled: taking subevents from the inputs, the trigger number with the TRB2 correction, BuildEvent, dropping all inputs, the output buffer and its sending, second-level building (fBNETrecv) and distribution over several builders (fBNETsend). The read iterators are abstracted to lists (C38 proves what they deliver); the write iterator is the byte-level model of HadModel.v. Not modelled: fResort inputs (off by default), statistics except the error counters, rates, commands, the number of BuildEvent calls per event. Times, the state of the output ports and the memory pool are inputs of every call.
* **DateModel.v** (timing.cxx, timing.h): dabc::DateTime, timing.h:190-258 and timing.cxx:158-330, in GMT. gmtime_r, timegm, strftime and sscanf are modelled after their documentation; localtime is not modelled. time_t has 64 bit, unsigned and int 32.
* **FnumModel.v** (BinaryFile.cxx, DataIO.cxx, LmdOutput.cxx): Model of the file numbers of dabc::FileOutput, base/src/DataIO.cxx:211-274, with dabc::FileInterface::fmatch (base/src/BinaryFile.cxx:60-110) and the list of files of dabc::FileInput (base/src/DataIO.cxx:125-165, without loop). The file system is a list of the names under which readable plain files can be opened; different names of one file and changes by others while the list is made are not modelled, nor zero bytes in names. Masks have no bracket expressions (see NameModel.v).
* **HUpdModel.v** (Hierarchy.cxx, Hierarchy.h, Record.cxx): Model of the update of a hierarchy from a second one which was built anew: HierarchyContainer::UpdateHierarchyFrom with SetModified, RecordFieldsMap::MoveFrom and Hierarchy::Update. Items, fields, flags and marks are those of HierModel.v. Not modelled, as there: permanent items (SetPermanent is called nowhere) and protected fields (only the hash field of an item with binary data gets protected, base/src/Hierarchy.cxx:1062 and 1087), a null source (Update releases the hierarchy), the exceptions for a null container and for a name which differs after the search just found it.
* **HadModel.v** (Iterator.cxx, Iterator.h, MonitorModule.cxx, Pointer.cxx, defines.cxx, defines.h): Model of the HADAQ formats: plugins/hadaq/hadaq/defines.h (HadTu, HadTuId, RawSubevent, RawEvent), plugins/hadaq/src/defines.cxx and plugins/hadaq/src/Iterator.cxx (ReadIterator, WriteIterator). Simplification: a buffer is one memory segment, so rawsize() = fullsize() of every dabc::Pointer into it.
* **HierModel.v** (Hierarchy.cxx, Hierarchy.h, Object.cxx, Queue.h, Record.cxx, Record.h): Model of base/src/Hierarchy.cxx: HierarchyContainer with its versions, change flags, time recording and history; the streamer; GetHChild and RemoveHChild; HistoryIter. An item is a tree; items are addressed by paths of names from the top item. Not modelled: permanent items (SetPermanent is called nowhere), disabled reading, stream_NoDelete, stream_Value, streaming of history entries (hlimit is 0), binary data, mutexes, protected fields, items with a _realname (names hold none of "/#:&?" and are not "", "." or ".."), other references keeping a removed item alive. Versions are unbounded numbers.
* **HistModel.v** (statistic.cxx, statistic.h): dabc::Average, statistic.h:118-143, statistic.cxx:301-372: number, sums, minimum, maximum and histogram of a sequence of values. The code calculates with doubles; the model is written for any arithmetic, with two instances: exact rational numbers, and IEEE binary64 (SpecFloat of the standard library, rounding to nearest even). Counters (long) do not overflow.
* **HldModel.v** (HldFile.cxx, HldInput.cxx, defines.h): Model of HLD files: plugins/hadaq/src/HldFile.cxx and the loop of plugins/hadaq/src/HldInput.cxx. A file is its bytes; a file open for reading is what remains of it after the file position. The memory a header is read from is what fread() delivered: reading behind that (old buffer content, or memory after the buffer) is undefined. Not modelled: failing fread / fwrite / fseek calls.
* **InTrModel.v** (Buffer.h, DataTransport.cxx, DataTransport.h, LocalTransport.cxx, LocalTransport.h, Module.cxx, ModuleAsync.cxx, ModuleItem.cxx, Port.cxx, Transport.cxx, Transport.h): Model of dabc::InputTransport (/repo/base/dabc/DataTransport.h:50-135, /repo/base/src/DataTransport.cxx:21-573) with the parts of dabc::Transport, dabc::ModuleAsync, dabc::Timer and dabc::LocalTransport it relies on. The DataInput object is arbitrary: its answers are functions of everything observed so far. It may make its call-back while Read_Size or Read_Start runs ([ocb]). While any of its functions runs the receiver, in another thread, may take buffers, connect or disconnect ([env]). All functions run in the thread of the transport; a step is one event processed by it. Not modelled: the content of the pool buffers (only the size matters), fPoolRef and ProcessPoolChanged, fActivateWorkaround (call-back that processes the event itself), a transport without memory pool, commands for statistics, what happens after the object is destroyed (DeleteThis), the time values.
* **ItemsModel.v** (Module.cxx, Module.h, ModuleAsync.cxx, ModuleItem.cxx, ModuleItem.h, Object.cxx): Numbering of module items and delivery of their events: Module.cxx:100-127, 157-225, 607-696, 704-748, 764-833, ModuleItem.cxx:38-47, ModuleAsync.cxx:49-178. Pointers are serial numbers; a freed item is [None] in the heap, and any access to it is undefined behaviour. Names are numbers, 0 the empty name. The module is running; the handlers are only recorded, the loops in them (ModuleAsync.cxx:116-124) not modelled.
* **JsonModel.v** (Record.cxx, string.cxx): Text of record fields, Record.cxx:749-1027, and numbers from text, string.cxx:162-214. Strings are lists of bytes; char is signed. Error output is not modelled.
* **LifeModel.v** (Manager.cxx, Object.cxx, Object.h, Reference.cxx, Thread.cxx, Worker.cxx): The life of one dabc::Object used by any number of threads: reference counter, destroy requests, destruction by an own thread, cleanup, childs, hand-over to the manager, deletion. One step is one section under the object mutex (or one access outside). Not modelled: objects which delete themselves (_DoDeleteItself, only dabc::Thread) and objects without mutex.
* **MCombModel.v** (CombinerModule.cxx, CombinerModule.h, Iterator.cxx): mbs::CombinerModule, plugins/mbs/src/CombinerModule.cxx and mbs/CombinerModule.h. Modelled: ShiftToNextBuffer, ShiftToNextEvent, BuildEvent, FlushBuffer and the flush timer. The read iterators are abstracted to the lists of events they deliver (C45), the write iterator to the events written and the room left (Iterator.cxx:298-301); a buffer under iteration stays in the queue of its port as in the code. Simplified: events have at least their header; an event without subevents on an input with the number in a subevent counts as having no number (the code looks at the memory behind it); sizes are not cut to 32 bits. Not modelled: information texts and rates, commands (the configuration of the inputs is fixed), the start of the module. Times, connection state, buffers from the memory pool and the state of the outputs are inputs.
* **MbsModel.v** (Iterator.cxx, Iterator.h, LmdFile.h, LmdInput.cxx, LmdTypeDefs.h, MbsTypeDefs.cxx, MbsTypeDefs.h, Pointer.cxx): Model of plugins/mbs: event format (mbs/LmdTypeDefs.h, mbs/MbsTypeDefs.h), ReadIterator and WriteIterator (src/Iterator.cxx), LMD files (mbs/LmdFile.h, src/LmdInput.cxx). Simplification: a buffer is one memory segment, so rawsize() = fullsize() of every dabc::Pointer into it; raw data is moved with AddRawData. Not modelled: printing, BufferHeader (MBS' own buffers), failing I/O calls.
* **MuxModel.v** (LocalTransport.cxx, Module.cxx, ModuleAsync.cxx, MultiplexerModule.cxx, Port.cxx): dabc::MultiplexerModule (MultiplexerModule.cxx) with any number of inputs and outputs, each connected by a LocalTransport (TransportModel.v) to a module of another thread. Every mutex-protected section, every FireEvent and every event extraction is one step. The events of the module are one first-in-first-out list (ThreadModel.v), fQueue is a list (QueueModel.v, C01). All ports stay connected; ports without connection are not modelled. A buffer is a value of [X]: Duplicate gives the same value.
* **NameModel.v** (Object.cxx): Object::NameMatch and NameMatchM, Object.cxx:1004-1058.
* **NetModel.v** (LocalTransport.h, NetworkTransport.cxx, Queue.h, SocketTransport.cxx, Transport.cxx): NetworkTransport.cxx: flow control with acknowledges. Two transports and a network which keeps the order of packets and loses none; a packet is received when a receive operation is posted, otherwise it waits. Send operations are completed in order, before or after the packet has arrived. Contents of buffers are numbers; the headers of packets and the inline data (PackHeader 185-217) are not modelled. Ports are connected and block when full (NumCanSend, LocalTransport.h:86-93). Counters are not limited. Input transports have a pool. TransportCleanup and errors of the network are not modelled.
* **OutTrModel.v** (DataTransport.cxx, DataTransport.h, LocalTransport.h, Module.cxx, ModuleAsync.cxx, ModuleItem.cxx, Transport.cxx, Transport.h): Model of dabc::OutputTransport (/repo/base/dabc/DataTransport.h:146-225, /repo/base/src/DataTransport.cxx:577-921) with the parts of dabc::Transport, dabc::ModuleAsync and dabc::Timer it relies on. The DataOutput object is arbitrary: its answers are given by two functions of everything observed so far ([ora] for the codes, [orab] for Write_Retry and Write_Init). The input port is the list of buffers waiting in it (the queue itself is modelled in TransportModel.v). All functions run in the thread of the transport; a step is one event processed by that thread. Not modelled: ProvideInfo (no effect on data), Read/Write statistics, RestartTransport, construction without DataOutput, what happens after the object is destroyed (DeleteThis), the time values.
* **PathModel.v** (Manager.cxx, Object.cxx, Object.h, ReferencesVector.cxx): Finding objects by name, and names of objects. base/src/Object.cxx, base/src/Manager.cxx. Simplified: objects are numbers; texts contain no zero bytes; references and mutexes are left out (RefModel.v, LifeModel.v); the loop to the top object has a step limit [d] ([Loop] beyond it).
* **PoolModel.v** (Buffer.cxx, Buffer.h, MemoryPool.cxx, Reference.cxx): Model of dabc::MemoryPool and dabc::Buffer as a state machine: /repo/base/src/MemoryPool.cxx, /repo/base/src/Buffer.cxx, /repo/base/dabc/Buffer.h. A Buffer is a reference to a BufferContainer (shared by assignment); handles are the Buffer variables of the user. Memory objects 0 .. n-1 are the pool blocks, later ones come from Buffer::CreateBuffer. Simplifications: one pool, allocated from the beginning; sizes and reference counters are unbounded; calls are atomic (a Buffer belongs to one thread, the pool functions lock its mutex); exceptions thrown out of destructors and by consistency checks are the outcome UB.
* **QueueModel.v** (Queue.h): Model of dabc::Queue<T,canexpand> and dabc::RecordsQueue<T,canexpand>, /repo/base/dabc/Queue.h. A queue is the C++ object: the allocated array (a list of cells, [None] = a cell never written), and the members fSize, fHead, fTail, fInitSize. Pointers into the array are indices relative to fQueue; fCapacity is the array length (they are only changed together, Queue.h:115-132, 150-168). [fQueue == nullptr] is the empty array; dereferencing any index is then UB. Simplified: memory allocation always succeeds (Expand never returns false); fSize is a nat, and Pop on an empty queue, which in C++ makes fSize wrap to 2^32-1 (Queue.h:259-268), is the outcome UB.
* **RcmdModel.v** (CommandsQueue.cxx, SocketCommandChannel.cxx, SocketCommandChannel.h): Model of the commands between two nodes: dabc::SocketCommandClient (base/src/SocketCommandChannel.cxx:27-520) on both ends of one connection, with dabc::CommandsQueue (base/src/CommandsQueue.cxx:14-126). A packet (header and data, written at once) is one element of a list; that bytes arrive in their order is C70, that the record in it is read back is C20. A command is its number at its node and the bytes of its fields. The number is not sent; it is kept in the packets only to say which command is meant. Not modelled: the commands of the channel itself (AcceptClient, ConfigureMaster, redirection of connects), disconnect packets, damaged packets, raw data, and the clocks (a deadline passes by an event).
* **RecordModel.v** (Buffer.cxx, Buffer.h, Record.cxx, Record.h): Model of base/src/Record.cxx and base/dabc/Record.h: sizestream, memstream, string and field streaming, field maps, records, field-map differences.
* **RefModel.v** (Object.cxx, Object.h, Reference.cxx, ReferencesVector.cxx, ReferencesVector.h): dabc::Reference, dabc::ReferencesVector and the reference counter of dabc::Object, used by one thread, for objects without childs, parent, own thread and cleanup flag.
* **ReplModel.v** (Application.cxx, string.cxx): Model of dabc::replace_all (base/src/string.cxx:237-251) and of the names of a list of connections in the default application (base/src/Application.cxx:351-364). Not modelled: resolving of variables in the templates (C33), the connections themselves.
* **RpktModel.v** (SocketCommandChannel.cxx, SocketCommandChannel.h, SocketDevice.h): Model of the packets of the command channel: SendCommand and the receiving part of dabc::SocketCommandClient (base/src/SocketCommandChannel.cxx:81-107, 210-295, 323-398 and 432-493). The stream is given byte by byte: a receive operation is completed when its last byte has come (C70 shows it for the socket). The buffer fRecvBuf is a list of cells, empty when there is none. [decodes] says which bytes are a command (C20), [known] for which replies there is a waiting command, [redirect] if the channel has a device for connections. Not modelled: failing memory allocations, what is done with the commands (C83), and failures of the socket.
* **SdevModel.v** (SocketDevice.cxx, SocketDevice.h): Model of the connection protocol of dabc::SocketDevice (base/src/SocketDevice.cxx:33-184 and 255-564). Records and protocols are numbered as they are made; a pointer is the number. A record which is not in fConnRecs any more is deleted (each removal is followed by DestroyRec), using it is UB. Not modelled: addresses used again for new records, the mutex (each event is one step of the thread of the device), the delay of DeleteWorker, sockets and the transport itself.
* **SlowModel.v** (SlowControlData.h): mbs::SlowControlData (plugins/mbs/mbs/SlowControlData.h).
* **SockModel.v** (Buffer.h, NetworkTransport.cxx, NetworkTransport.h, SocketThread.cxx, SocketTransport.cxx): SocketTransport.cxx and the stream part of SocketIOAddon (SocketThread.cxx), one direction of a connection: packing of packets, sending and receiving in pieces. The socket is a queue of bytes; a write takes and a read gives any number of bytes. Queues of operations are not limited (they are in NetModel.v). A closed transport does nothing. Datagram sockets are not modelled.
* **SortModel.v** (SorterModule.cxx, SorterModule.h): hadaq::SorterModule, plugins/hadaq/src/SorterModule.cxx and plugins/hadaq/hadaq/SorterModule.h. The read iterator is abstracted to the list of subevents of a buffer (C38 proves what it delivers). The output buffer has one segment. Queue state, pool and output port are inputs of every call; so is std::sort, of which only the guarantee of the C++ standard is used. Not modelled: commands, debug output, fBufCnt and fLastRet.
* **SrvModel.v** (ClientTransport.cxx, ClientTransport.h, DataTransport.cxx, DataTransport.h, LmdTypeDefs.h, MbsTypeDefs.cxx, ServerTransport.cxx, ServerTransport.h): Model of one connection of an MBS server and its client: mbs::ServerOutputAddon (plugins/mbs/src/ServerTransport.cxx:23-285) with the dabc::OutputTransport which calls it (base/src/DataTransport.cxx:704-889, modelled in full in OutTrModel.v), and mbs::ClientTransport (plugins/mbs/src/ClientTransport.cxx:22-400) with the dabc::InputTransport which calls it (in full in InTrModel.v), over a socket connection which keeps order. Each operation below is one event processed on one side. A started send puts its bytes into the connection at once; its completion is processed at any later time. Both sides run on little endian hosts with the format of FillServInfo (new format, one buffer per stream), so there is neither swapping nor spanning. Not modelled: CLOSE and socket errors, EOF and EOL buffers, stopping, lost or late events of the threads, buffers whose pointer calls fail.
* **ThreadModel.v** (Thread.cxx, Thread.h, threads.cxx, threads.h): Model of the event queues of dabc::Thread (/repo/base/dabc/Thread.h, /repo/base/src/Thread.cxx), of dabc::Condition (/repo/base/dabc/threads.h, /repo/base/src/threads.cxx) and of dabc::EventId.
* **TimeoutModel.v** (Thread.cxx, Thread.h, timing.h): Model of worker time-outs: Thread::TimeoutRec (/repo/base/dabc/Thread.h:134-227), Thread::CheckTimeouts (/repo/base/src/Thread.cxx:1284-1327), the events evntCheckTmoutWorker / evntCheckTmoutAddon (1114-1151) and ThreadRef::_ActivateWorkerTimeout (1416-1448). Simplifications: times are integers instead of double (TimeStamp::null() is "value <= 0", timing.h:131); the two records tmout_worker and tmout_addon of a WorkerRec are two consecutive slots of one list, looked at in that order; a reaction does not add or remove workers.
* **TransportModel.v** (BuffersQueue.cxx, BuffersQueue.h, LocalTransport.cxx, LocalTransport.h, Module.cxx, ModuleAsync.cxx, Port.cxx, Port.h): Model of dabc::BuffersQueue (/repo/base/dabc/BuffersQueue.h, /repo/base/src/BuffersQueue.cxx), dabc::LocalTransport (/repo/base/dabc/LocalTransport.h, /repo/base/src/LocalTransport.cxx) and of the event loops of dabc::ModuleAsync that drive it (/repo/base/src/ModuleAsync.cxx). A buffer is an arbitrary value of type [X]; a dabc::Buffer variable is an [option X], [None] being the null buffer.
* **TrigModel.v** (CombinerModule.cxx, SorterModule.h): Trigger number arithmetic: CombinerModule::CalcTrigNumDiff plugins/hadaq/src/CombinerModule.cxx:612-618 and SorterModule::Diff plugins/hadaq/hadaq/SorterModule.h:86-92.
* **UdpModel.v** (Pointer.cxx, Pointer.h, UdpTransport.cxx, UdpTransport.h): Model of the HADAQ UDP receiver: plugins/hadaq/src/UdpTransport.cxx (hadaq::NewAddon, hadaq::NewTransport). Simplifications: one thread; a pool buffer is one memory segment; fSendCnt, fSkipCnt and the statistic counters are not bounded; fReduce is any test on the filled and the full size; which datagrams are dropped artificially is chosen from outside instead of by fLostCnt and rand(); the result of ReadUdp, which no caller uses, is left out; CloseTransport, the debug output and the commands are left out.
* **UrlModel.v** (Url.cxx, string.cxx): dabc::Url, Url.cxx:46-300, and str_to_int, string.cxx:142-160. Strings are lists of bytes; EOUT output is not modelled.
* **WalkModel.v** (Iterator.cxx, Iterator.h, Manager.cxx, Object.cxx, ReferencesVector.cxx): dabc::Iterator, the walk over the objects below a folder. base/src/Iterator.cxx, base/dabc/Iterator.h. Simplified: references are object numbers (counting of references: RefModel.v, LifeModel.v); the children of an object do not change within one call of next(); fewer than 2^32 children; the item name kept by next() (line 86) is left out.
* **XmlModel.v** (XmlEngine.cxx): Model of the parser of base/src/XmlEngine.cxx: XmlInputStream for a file, ParseFile, ParseStream, ReadNode, UnpackSpecialCharacters; DocGetRootElement and GetNodeContent. The stream is the text from fCurrent on, with the positions in the buffer; fBuf itself is not needed. std::istream::get (libstdc++) looks at the character after the last one it stores, so eof is set as soon as nothing is left in the file; it writes a zero behind the characters, which is what *fCurrent reads at the end (value 0 below). The file holds no zero bytes. Characters are signed: 128 to 255 are negative. Not modelled: failing realloc and malloc, error numbers and line numbers (only messages, XmlEngine.cxx:1639-1657), ParseString and ReadSingleNode (called nowhere), writing of XML.

Not modelled at all: configuration files and XML (Configuration, ConfigBase, ConfigIO,
XmlEngine), Application, Manager, Factory, Device, Parameter, Publisher with its
subscriptions, HierarchyStore, ConnectionManager and ConnectionRequest, SocketDevice and
SocketCommandChannel, ModuleSync, Iterator, Profiler, CpuInfoModule, logging and debug
output; the plugins aqua, bnet, dim, ezca, fesa, gosip, http, ltsm, mbs-root, rfio, root,
saft, stream, user and verbs; in hadaq and mbs everything but the files cited above.

## Assumptions

`Print Assumptions` of every theorem listed in MANIFEST.json answers "Closed under the
global context": no axiom, neither own nor from a library, is used by any of them.  (The
check of all compiled files names seven opaque constants of `Coq.ssr.ssrunder`, which come
with loading ssreflect through the libraries and which no theorem uses.)  There are no
section-less variables or hypotheses, no admitted proofs and no switched-off checks.
