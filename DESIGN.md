# Formal model of Metamod:Source / SourceHook — design

Everything lives in `rocq/theories`, namespace `Verif`, Coq 8.16.1.
`/repo` is read as text only; nothing of it is built or executed.

## 1. Layout

For every area there are up to four files:

| file | contents |
|---|---|
| `<Area>Model.v` | transcription of the C++ functions; each definition cites file and lines |
| `<Area>Spec.v`  | independent, small specification (what the property talks about) |
| `<Area>Proofs.v`| lemmas; nothing here is a claim by itself |
| `<Area>Props.v` | the property theorems only; each closed by `exact`/short glue, with `Print Assumptions` and a non-vacuity `Example` |

Naming: theorems are called `Cnn_<what>`; `_refuted` theorems exhibit a
concrete witness for which a documented/expected claim is false of the code;
`_partial` theorems prove less than the English property and say what is missing.

## 2. Areas and method per property

(Only the method is listed here; `MANIFEST.json` has the status and theorem names.)

### SourceHook core (`core/sourcehook/sourcehook.cpp`, `sourcehook_impl*.{h,cpp}`, hook-function macros of `sourcehook.h`)

A deterministic machine `step : State -> Event -> Outcome`.  The environment
(engine, plugins, handlers) is an arbitrary list of events: API calls made by
whatever code runs at the moment, calls of virtual functions, returns of the
code that runs at the moment.  All control flow of SourceHook itself (hook
functions generated by `SH_DECL_HOOK`, `SetupHookLoop`, `GetNext`,
`EndContext`, `RemoveHookByID`, ...) is computed by `step`.  Outcomes:
`Ok state`, `Illegal` (the environment did something that is not possible,
e.g. returning with an empty call stack), `UB` (the C++ would dereference a
destroyed object or an uninitialised pointer).  Heap objects (CVfnPtr, CIface,
list nodes of hooks, CHookManager) have identities drawn from a counter, so
that dangling pointers are visible.

Files: `ShModel` (data structures and API), `ShRun` (hook functions, contexts,
events, `step`), `ShSpec` (vocabulary of the statements: installed hooks of a
slot, managers of a slot, reachable states, observations), `ShInv` (invariant),
`ShLists/ShMan/ShHooks/ShAdd/ShRem/ShApi/ShUnload/ShHist/ShGood/ShPool/ShView/
ShChange/ShMgr/ShOrder/ShOwned/ShClient` (proofs), `ShApiProps` (theorems about
the API).

Running hook functions (C04-C07, C10-C16, C19, C21, C22), in three layers:
`ShAbs` is an abstract machine `astep` that only knows the running calls
(activations: function, object, phase, handler that runs, results) and the
installed hooks - no contexts, iterators, vfnptr or iface objects;
`ShFrames/ShRel/ShCalls/ShMoves/ShFollow/ShRefine` prove that `step` refines it
and never reaches UB if every event satisfies `allowed` (`step_refines`);
`ShTrace` defines `see t F`, what a trace tells about the call `F`;
`ShLoop/ShAhead/ShExact/ShSkip/ShRules/ShReady/ShPlay` prove that every new
observation follows the rules `obs_ok`, which only talk about the trace before
it and the installed hooks; `ShLoopProps` has the theorems.  They are about
`step` and traces; the running calls `A` in `play mem l s A` appear in
hypotheses such as "no SH_CALL of an unhooked function is running".

The discipline `allowed` (see the comment at `C21_defined`): calls on objects
(not NULL), through the position the hook function was made for; recalls of the
same function and object while the function is hooked; AddHook not for NULL, one
plugin per hook function, no refilling of a list that is being iterated and has
been emptied; RemoveHookManager only if its plugin has no hooks there; original
entries even.  Examples `C21_rule_*` show UB when a rule is broken.

Assumptions built into this model:
* `mprotect` and `ModuleInMemory` succeed; vtable slots are written only by
  SourceHook; a slot initially holds an original function.
* Integers stand for addresses; the address arithmetic is unbounded.
* Each handler object (delegate) given to AddHook is a new object; handlers are
  compared by an integer (`IsEqual`).  When AddHook refuses, the delegate is
  leaked (as in the C++).
* Uninitialised pointers compare unequal to pointers to live objects.
* `ReadyToUnload` callbacks do not call back into SourceHook.
* Evaluating the arguments of a recall (`RETURN_META_NEWPARAMS`) does nothing.
* The static `ms_MFI` info of a hook manager class is `h_pfs`, changed only by
  `SH_MANUALHOOK_RECONFIGURE`.
* One parameter and one return value (integers) stand for all of them; return
  values are values, not references.

* C01 ids: invariant of the machine.
* C02, C03, C17, C18, C23: post-conditions of one step from any state that satisfies the machine invariant; the invariant is proved for every reachable state.
* C04–C07, C10–C13: the hook loop.  Two levels: (i) an independent *loop specification* (pure function on lists of handlers and results) which the small-step loop refines when handlers do not touch hooks; (ii) invariants of the machine with ghost logs for arbitrary interleavings.
* C08, C09, C20: invariants of the machine.
* C11: step theorem on the machine with a running loop.
* C14, C16, C22, C24: the documented claim is false of the code; refuted with a concrete history and the true weaker statement is proved.
* C15: theorem on the SetIgnoreHooks / call / Reset sequence.
* C19: pending-unload queue invariant.
* C21: no-UB theorem for disciplined histories; refutations for undisciplined ones.
* C25: `ProtoModel.v`, direct induction on parameter lists.

### Containers (`sh_list.h`, `sh_vector.h`, `sh_stack.h`, `sh_tinyhash.h`, `sh_string.h`, `sh_pagealloc.h`, `sh_asm.h`)

Common method for `List*`, `Vec*`, `Stack*`, `Hash*`: the model has an explicit
heap (blocks or nodes that can be allocated and deleted; use after delete,
double delete, reading uninitialised slots and indices out of bounds give
`None`), several container objects at once, and programs (lists of operations
on named containers).  The specification is a small interpreter of the same
programs on mathematical objects (`ListSpec`, `VecSpec`, `StackSpec`: lists;
`HashSpec`: finite maps, relational because the order of iteration is open).
The theorems say: for every program the specification accepts, the model is
defined, gives the same results, and no block is leaked.  The allocator is an
arbitrary function that returns a non-NULL address that is not in use
(`allocator`, `kallocator`, `nallocator`; `first_free` examples show that one
exists); for `List` the addresses are part of the program.

* C26 list (`sh_list.h`): nodes with prev/next pointers.  `operator==`/`<` of the elements are parameters.
* C27 vector (`sh_vector.h`): arrays with capacity; unsigned wrap-around of the size in `pop_back`.
* C28 stack (`sh_stack.h`): sectors of 16 slots; the `CVector` of sectors is a list (C27).
* C29 hash (`sh_tinyhash.h`): the `List` in a bucket is a list of node addresses (C26); hash function, growth decision and comparison are parameters.  `m_percentUsed` is a count of units 1/buckets (exact in `float`, the bucket numbers are powers of 2).
  Iterators are only used in loops without insertion (`find`, `erase`, copying, iterate, erase while iterating).
* C30 string (`sh_string.h`): each String owns an array of chars that may be indeterminate; programs on several
  Strings; `size_t` arithmetic modulo 2^64.  Refinement to `list ascii` (`StringSpec.sspec`, relational).  Memory
  is not shared between Strings, so there is no heap; pointers into the own array are distinguished (`POwn`).
  Calls excluded from `sspec` have a `_refuted` theorem.
* C31 page allocator (`sh_pagealloc.h`): a machine with mappings (range, writable) and bytes; a write outside
  of a writable mapping is a fault.  The answer of `mmap` is part of each call, restricted by `os_answer` (NULL
  or a page-aligned unused range below 2^63).  `munmap`/`mprotect` act on whole regions and succeed.  The lists
  inside are lists (C26).  Client view: a ledger of live blocks (`PageSpec`); invariant over all runs.
  Modelled with the debug cleaning (0xCC) of freed units.
* C32 trampoline (`sourcehook_impl_cvfnptr.cpp`, GCC on x86-64): `Init` on the machine of C31; `TrampSpec` gives
  an execution relation for `jmp rel32`, `mov rax, imm64`, `jmp rax` (fetching needs a mapping that is not writable).
  Invariant over all runs: every live trampoline leads to its original entry.
* C55 code buffer (`sh_asm.h`): several buffers sharing one page allocator, on the machine of C31; refinement to
  byte lists of which one is open for writing (`BufSpec`).  `SH_ASSERT` is nothing, as in release builds.

* C65 (`MemModel.v`, `MemSpec.v`): sh_memory.h for Linux. Memory is the rights of each page and
  the values of pointers; mprotect and the text of /proc/self/maps are specified (a text
  describes a memory, or cannot be read); strtoul and getline are modelled on bytes. Patch and
  Revert of CVfnPtr write through it; a write to a page that is not writable is undefined.

### Utilities (`core/metamod_util.cpp`, `loader/utility.cpp`)

* C33–C38, C53, C56: functions on byte lists; in-place loops transcribed; UB (out-of-bounds) explicit.
* C37 (`RelModel`): strings with a buffer size; `RelSpec.denote` is the lexical meaning of a path (a walk over its
  fields).  `PathExists` is an arbitrary function.

### Core metamod (`core/metamod.cpp`, `core/metamod_plugins.cpp`)

* C39–C40 (`IfaceModel`): interface names in byte arrays (a write outside is UB); the factory is an arbitrary function of
  everything asked so far.  `*ret` is not modelled.  `atoi` above INT_MAX is UB.
* C41–C48: the plugin manager (`PlugModel.v`) is a state machine over a heap of plugin
  objects, the list of addresses, SourceHook's hooks (only their plugin id, owner and
  pause flag), its pending unloads, the open libraries and a log of every call into a
  plugin. Everything a plugin or the system answers is an input of the step (does the
  file exist, what does the library export, what does each callback return, which
  calls of Metamod does it make); every theorem quantifies over these. Undefined
  behaviour (use of a freed object, a call into a closed library, reading the status
  before it is set) is a distinct outcome (`None`). Simplified: m_Cvars and m_Cmds
  are one list; the attempts to call CreateInterface_MMS with older versions are one
  answer; m_Source is left out (never assigned); callbacks that call the plugin
  manager again, and MetaFactory for a NULL name, are not modelled.
  `PlugRun.v`: invariants of every step; `PlugNote.v`: what is logged; `PlugSafe*.v`:
  the ownership invariant (which object holds which library, who is pending, in which
  phase of its life each plugin is) by which allowed histories never reach undefined
  behaviour; `PlugHooks.v`: which hooks belong to whom. `PlugSpec.next` is the
  life of a plugin as a machine over the calls it receives; `guarded`, `never_retried`
  and `silent` name the histories in which the defects of section 5 do not occur.
  `PlugConsProps.v`: console variables and commands (C62; one list for both, the engine's
  own registration is not modelled).
* C49 (`PlFileModel.v`, `PlFileSpec.v`): the file as a list of bytes, fgets with the
  buffer of 255 bytes, trimming, aliases, quotes; the calls of SetAlias and Load are the
  events of the run. The specification says what a line means (`trimmed`, `line_means`)
  and is shown to determine exactly one meaning for each line. Bytes above 127 are
  neither white space nor letters (glibc, "C" locale).
* C57 (`PlFileModel.v`): GetFullPluginPath, Linux x86-64; the existence of files is an
  oracle.
* C64 (`ConsModel.v`, `ConsSpec.v`): Command_Meta and Command_ClientMeta as functions from the
  arguments and the state of the plugin manager to the new state and the reply (a constructor
  per message; only the lines of the lists are modelled as text, with their arrays). atoi as in
  glibc (saturation to long, truncation to int). What "refresh" loads is an input (C49). The
  specification sees a state as the list of (number, file, status).

### Loader (`loader/gamedll.cpp`, `loader/loader.cpp`)

* C52 (`EngModel.v`, `EngSpec.v`): backend_names, mm_DetermineBackendS1, the choice for
  Source 2, mm_GetGameName, the path of the core library. A factory is the set of the
  interfaces it provides; which patterns occur in the game library and strtoul of
  SteamAppId are oracles. The specification is a decision table (`engine_is`).
* C51 (`DllModel.v`, `DllSpec.v`): the game library behind the loader, Source 1:
  mm_GameDllRequest, mm_FreeCachedLibraries, mm_PatchDllInit, mm_PatchDllShutdown,
  DLLInit and DLLShutdown. Handles of libraries, tables of functions; what the core, the
  plugins and the game do to the game's table is an arbitrary function. Use of a closed
  library, of a null bridge, and endless recursion are undefined (`None`). Memory
  protection of the tables is not modelled (mm_PatchDllShutdown relies on the protection
  set by mm_PatchDllInit).
* C50 (`GameModel.v`, `GameSpec.v`): mm_DetectGameInformation with its arrays; files,
  getcwd, realpath, the path of the loader and of the game are answers of the system,
  PLATFORM_MAX_PATH is a parameter. The specification says which entries a file has
  (`candidates`, determined by the file) and which of them are taken (`chosen`).

### Member function pointers (`sh_memfuncinfo.h`, macros of `sourcehook.h`)

* `MfpModel.v`, `MfpSpec.v`, `MfpProofs.v`, `MfpProps.v`: C66. GetFuncInfo for GCC and MSVC, 32 and
  64 bits, and the slots that SH_ADD_HOOK, the hook function, SH_CALL, SH_GET_ORIG_VFNPTR_ENTRY and
  the manual variants compute. The specification is the call through a pointer to member: the
  Itanium ABI, and for MSVC the adjustment of this and the execution of the code pointed to with
  the decoders of C60 and C67.

### Generated hook managers (`sourcehook_hookmangen.cpp`)

* `GenModel.v`, `GenSpec.v`, `GenProofs.v`, `GenProps.v`: C54 reference counting
  (MakeHookMan, ReleaseHookMan), the checks of Generate, C58 AutoDetectRetType, C59
  AutoDetectParamFlags and BuildProtoInfo, for the 32-bit builds (gcc, macOS, MSVC),
  64-bit MSVC and 64-bit Linux (which has no generator). The address of the generated
  function is an oracle, assumed non-null and different from those of the managers that
  are alive (C31).
* `Asm64Model.v`, `Asm64Spec.v`, `Asm64Proofs.v`, `Asm64Props.v`: C60. Every method of
  `x64JitWriter` (sh_asm_x86_64.h) as the bytes it appends; the specification is a decoder
  written from the instruction set reference with all addressing forms.
* `Mach64.v`, `Mach64Proofs.v`: what the decoded instructions do (registers, low halves of
  the xmm registers, ZF/SF/OF, memory as bytes, calls to arbitrary functions). Bytes are
  fetched and decoded at every step, so that a wrongly patched jump lands where it would on
  the processor.
* `Jit64Model.v`, `Jit64Spec.v`, `Jit64Base.v`, `Jit64PubProofs.v`, `Jit64PubProps.v`: C61.
  The MSVC x64 generator (sourcehook_hookmangen_x86_64.cpp) as the bytes it writes; the
  public function is executed on the machine.
* `Jit64HookSpec.v` (specification), `Jit64HookList.v`, `Mach64Mem.v`, `Jit64Run.v`,
  `Jit64Frame.v`, `Jit64Steps.v`, `Jit64Blocks.v`, `Jit64Loop.v`, `Jit64Orig.v`, `Jit64Ends.v`,
  `Jit64Epi.v`, `Jit64HookProps.v`: C63. The generated hook function on the machine follows a
  protocol of calls, written down from the hook function of the macros: who is called with
  which arguments, and what the called function finds in memory. An invariant (stack pointer,
  frame, saved parameters) holds between the pieces; the handler loop is by induction on the
  number of calls, so that runs that never end are covered too. Results: void, references,
  integers, floating point numbers and objects of up to 2^16 bytes without constructors,
  destructor and assignment operator that are returned in memory (`ret_class`).  For an object
  the buffer the caller passes must lie outside the stack the function uses (`target_ok`), and a
  run in which a called function hands back a pointer into the frame as the place of the returned
  object is not followed further (`Broken`).  Objects with constructors, copy constructors or
  assignment operators are outside.

* `Asm32Model.v`, `Asm32Spec.v`, `Asm32Proofs.v`, `Asm32Props.v`: C67. All 180 functions IA32_* of
  sourcehook_hookmangen_x86.h as the bytes they append; the specification is a decoder of IA-32
  machine code (ModRM, SIB, displacements, immediates, x87, prefixes) and `meaning`, the instruction
  each function's name stands for. The table of functions was compared with the header on random
  arguments by a script (not part of the trusted base).

* `Mach32.v`, `Mach32Proofs.v`: what the decoded 32-bit instructions do (8 registers, flags, x87
  stack, 2^32 bytes of memory; calls are events answered by an oracle), and a calculus of runs.
* `Jit32Model.v` (generator for GCC and MSVC), `Jit32Spec.v`, `Jit32Steps.v` (a rule per instruction),
  `Jit32Base.v` (patched jumps), `Jit32PubProofs.v`, `Jit32PubProps.v`: C68.

* `Jit32HookSpec.v` (the protocol: which calls a hook function makes, with which arguments and memory,
  for both compilers), `Jit32HookList.v` (the function as a list of instructions), `Jit32Arith.v`,
  `Jit32Frame.v` (variables, owned bytes, a rule for calls), `Jit32Push.v` (parameters),
  `Jit32Blocks.v` (one lemma per block of the generator), `Jit32HookProps.v`: C69. The run is cut
  after L handlers per loop for any L, since the number of handlers is up to GetNext; it is not
  described further if a called function breaks the convention. For a result in memory the address
  given by the caller must be outside the stack the function uses (`target_ok`), and the run is not
  described further if the context gives a source for the result that overlaps it (`source`).

* `VspModel.v` (ServerPlugin and its table of virtual functions, mm_GetVspCallbacks, CreateInterface,
  what DLLInit and DLLShutdown do to the same variables; the interface searches of
  core/vsp_bridge.cpp), `VspSpec.v` (IServerPluginCallbacks of each branch of the engine),
  `VspProofs.v`, `VspRuns.v`, `VspLib.v`, `VspProps.v`: C70. A run is any sequence of calls by the
  engine; the answers of the operating system, of engine detection and of the core's Load are
  arguments of the calls. Opening the core twice gives two handles; that it may be one file mapped
  once is not modelled. Not modelled: the fatal log, the hooks on plugin_unload, the description text.

* `BootModel.v` (the flags of core/metamod.cpp; mm_StartupMetamod, OnGameInit, OnLevelShutdown,
  EnableVSPListener, NotifyVSPListening, SetAllLoaded, and the calls which gamedll_bridge.cpp and
  vsp_bridge.cpp make), `BootSpec.v` (statements about traces of events only), `BootProofs.v`,
  `BootVsp.v`, `BootProps.v`: C71. Whether code of plugins calls EnableVSPListener while it is loaded
  or notified is an argument of each step. Not modelled: which plugins a load finds (C38, C40), the
  version check of plugin_load's file name, Source 2.

* `LogModel.v` (mm_LogMessage and BaseProvider::LogMessage), `LogSpec.v` (lines as functions of texts),
  `LogProofs.v`, `LogProps.v`: C72. A message is a tree, since the engine's functions which get it may be
  hooked by plugins that log. vsnprintf is the oracle of `StrModel.v`. Not modelled: the result of the
  function, the engine's own limits on what it prints, threads.

* `ProvModel.v` (the hooks of both providers, their handlers, the first part of DLLInit_Pre),
  `ProvSpec.v` (what a sensible engine does with loop modes, what is expected to be announced), `ProvProofs.v`,
  `ProvProps.v`: C73, C74. SourceHook is abstracted to a list of hooks (its own correctness is proved
  elsewhere). Not modelled: console variables, user messages, search paths, AllowDedicatedServers, what the
  core does when something is announced.

* `UmsgModel.v` (CacheUserMessages with the jump written over Error, FindUserMessage, GetUserMessage),
  `UmsgSpec.v`, `UmsgProofs.v`, `UmsgProps.v`: C75. The processor's near jump is modelled from its bytes.
  Not modelled: memory protection, the buffer of 256 bytes which the game fills.

* `CfgModel.v` (where plugins are looked for: command line, variables, defaults, over a whole session),
  `CfgSpec.v`, `CfgProofs.v`, `CfgProps.v`: C76. The engine's command line is an oracle. Not modelled: a server
  plugin loaded later (BootModel.v), the loading itself, formatting limits (StrModel.v).
* `FsModel.v` (the search paths which the Source 2 provider takes out), `FsSpec.v`, `FsProofs.v`, `FsProps.v`: C77.
  RemoveSearchPath belongs to the engine: the theorems hold whether it removes the first equal entry or all.

* `S2lModel.v` (the game library behind the loader, Source 2: requests, Connect, AllowDedicatedServers, Init,
  Disconnect, the four patches with the protection of pages), `S2lSpec.v` (what the game and the core see of an engine which
  starts and stops), `S2lProofs.v`, `S2lProps.v`: C78. Handles and tables as for C51; mprotect succeeds; a page has
  4096 bytes. Not modelled: names for Source 1 (C51), requests made while one of the functions runs.

* `VdfModel.v` (loading of the plugins at start and by "meta refresh": what is done with the lines of the list, the VDF
  files of the directory, the report), `VdfSpec.v` (requests one after the other and how each ended), `VdfProofs.v`, `VdfProps.v`:
  C79. Built on the models of C37, C49, C57 and of the plugin manager (C41-C48). The engine's KeyValues parser and
  readdir are arguments; the libraries are an arbitrary function of the manager's state and the path; PATH_SIZE and MAX_PATH are
  parameters. In the message about a failed plugin of the list the code prints its line buffer, the model the plugin's name.

* `DlgModel.v` (FastDelegate.h: closures with and without the static function hack, conversion of GCC's and MSVC's pointers to
  members, copying, mementos, comparisons, the call), `DlgSpec.v` (delegates as values), `DlgProofs.v`, `DlgProps.v`: C80. How the
  compilers call and compare pointers to members is taken from their ABIs (`MfpSpec.v`). That functions of one signature share one
  InvokeStaticFunction is true inside one module; delegates of different modules are not compared (sourcehook.h 273).

* `CmdModel.v` (provider_source_console.cpp: the engine's linked list before Orange Box, Register, Unregister, RemoveMetamodCommands, the
  search for the head of the list; metamod.cpp 920-966 and metamod_plugins.cpp 804-866: what is kept per plugin and taken out when it goes),
  `CmdSpec.v` (things with owners, newest first), `CmdProofs.v`, `CmdProps.v`: C81, C82. What the engine's ICvar::RegisterConCommandBase does is
  assumed: the object goes in front (`checks`: unless the engine already has it). From Orange Box on the engine unlinks; that is not modelled.
  The listeners told of each unlinking are in C62.

* `SelfModel.v` (metamod.cpp 348-388, InitializeVSP: the command by which Metamod has itself loaded as a server plugin), `SelfSpec.v`,
  `SelfProps.v`: C83, on top of `RelModel.v`. Oracles: GetFileOfAddress, abspath, PathExists. That the engine takes the file relative to the directory of
  its own library is how the code uses it; the engine is not modelled.
* `PibModel.v` (sourcehook_pibuilder.h: CProtoInfoBuilder, on the vectors of `VecModel.v`), `PibSpec.v`, `PibProps.v`: C84, down to CProto::Fill
  of `ProtoModel.v`.

* `LibModel.v` (loader/utility.cpp 387-671: mm_GetLibraryInfo for ELF, PE and Mach-O, 32 and 64 bits, and mm_FindPattern), `LibSpec.v` (the byte
  layout of the headers from the ABI documents, and what is mapped once the dynamic linker has loaded a library), `LibProofs.v`, `LibProps.v`: C85.
  Memory is a partial function; reading where nothing is mapped is an error outcome. Oracles: the base address from dladdr/VirtualQuery, the page size.
  That the linker maps the pages as `loaded` says, that on Windows the whole image is readable and that there are fewer than 65535 program
  headers is assumed. The memset over a std::vector (641) is taken to leave an empty vector.

* `KvModel.v` (provider_source.cpp 157-205 and provider_source2.cpp 168-208: ProcessVDF with the life of the KeyValues object; provider_source.cpp
  613-641: KVLoadFromFile with the file handle and the scratch memory), `KvSpec.v`, `KvProps.v`: C86. Oracles: Open, Size, Read, the old contents
  of the scratch memory, the engine's parser and LoadFromFile. A use of a closed file, of memory outside the scratch or of a deleted object
  is an error outcome.

* `S2cModel.v` (provider_source2.cpp 291-332: registering and unregistering of console commands and variables; 334-354 CreateConVar, 152-157 the
  loop of Notify_DLLShutdown_Pre; metamod.cpp 920-966; metamod_plugins.cpp 804-866 and the callers in _Load and _Unload), `S2cSpec.v` (who has
  what registered and how each command looks, told from the calls alone), `S2cProofs.v`, `S2cProps.v`: C87. Trusted about the engine: a command
  registered again under the same name gets new callbacks and keeps its flags (the comment in 300-303 says so); the values of the SDK's flags.
  The listeners told of an unlinking (metamod.cpp 968-1049) are in `UnlModel.v`.

* `UnlModel.v` (metamod.cpp 948-1049: UnregisterConCommand, UnregisterConVar, for a plugin and with an id; metamod_plugins.cpp 149-152, 617-646,
  852-866), `UnlSpec.v`, `UnlProps.v`: C88. The listeners do nothing themselves while they are told. An unset status or a NULL API that is used is
  an error outcome.

* `ToldModel.v` (metamod_plugins.cpp 58-68, 471-528: what is passed to CreateInterface_MMS and the further tries on Valve's games; metamod.cpp
  771-787: PathFormat with "%s"; metamod_util.cpp 178-189; metamod_oslink.h 49-53, 69-78): C89. The path array is a list of bytes with any old
  contents. The plugin's function is an argument. Not modelled: the four version numbers in the structure, which are constants; a plugin that
  writes to the shared structure or keeps pl_path (a stack array) after the call; vsnprintf failing. A GetBaseDir that changes between plugins
  is not modelled (it is set once, metamod.cpp 235).

## 3. Trusted base

* Coq kernel 8.16.1 (`coqc`; `vm_compute` is used for concrete examples).
* `Print Assumptions` beneath each property theorem: expected "Closed under the global context".  Any exception is listed here.  (None so far.)
  `coqchk` also lists axioms of `Coq.ssr.ssrunder` as part of the loaded library; no theorem uses them.
* The hand transcription of the C++ (function by function, cited line ranges).
* For C67, C68 and C69: the decoder (`Asm32Spec.v`) and the instruction semantics (`Mach32.v`) as
  descriptions of the processor, the 32-bit conventions as stated in `Jit32Spec.v`.
* For C60, C61 and C63: the decoder (`Asm64Spec.v`) and the instruction semantics (`Mach64.v`) as
  descriptions of the processor, the Win64 calling convention as stated in `Jit64Spec.v`.

## 4. Not modelled

* Multi-threading (the code has no locks and is single-threaded).
* Vtable layout; the shapes of MSVC's thunks are those listed in `MfpSpec.thunk32/64`.
* Of the 32-bit hook-manager generator's code: the parts for result objects with
  constructors, destructors or assignment operators and for parameters with copy constructors are in
  the model (`Jit32Model.v`) but no theorem speaks about their runs.
* OS calls: success of `mprotect`/`mmap`/`dlopen` are oracle inputs.
* Logging, console output text (except the lines of "meta list", C64).

## 5. Findings (claims that are false of the code, with machine-checked witness)

* C03: `RemoveHook` with an object pointer that adjusts to NULL removes
  vtable-wide hooks (`C03_vp_never_removed_refuted`).
* C18/C24: `RemoveHookManager` (used by `SH_MANUALHOOK_RECONFIGURE`) does not
  remove the plugin's hooks when another manager is registered on the slot
  (`C24_removes_hooks_refuted`), removes the hooks of all plugins when it is
  the last one (`C24_only_own_hooks_refuted`); afterwards `UnloadPlugin` of
  another plugin destroys hooks it does not own (`C18_other_hooks_refuted`).
* C25: prototype compatibility is not transitive
  (`C25_compat_transitive_refuted`); `Fill(NULL)` dereferences NULL
  (`C25_fill_null_refuted`).
* C14: the previous result is not kept across a recall (`C14_refuted`).
* C15: inside an SH_CALL of an unhooked function, an SH_CALL of a hooked one
  removes the outer request to ignore hooks: the context stack is one entry
  shorter afterwards (`C15_depth_refuted`).
* C16: SetIgnoreHooks ignores which function it is for: an SH_CALL of an unhooked
  function makes the next hooked call of another function skip its hooks
  (`C16_refuted`).
* C21: undefined behaviour when a rule of the discipline is broken
  (`C21_rule_position`, `_recall`, `_shared`, `_refill`, `_manager`).
* C22: the clean-up task of a trampoline is run twice: `make_next` does not reset
  `m_CleanupTask` (`C22_refuted`).
* C38: `mm_FindPattern` misses a match that ends at the last byte of the region
  (`C38_findpattern_refuted`).
* C26, C27, C28, C29: assigning a container to itself: `List` and `THash` become
  empty, `CVector` becomes empty, `CStack` frees its sectors but keeps its size
  (`C26_self_assign_refuted`, `C27_self_assign_refuted`, `C28_self_assign_refuted`,
  `C29_self_assign_refuted`).
* C27: `pop_back` on an empty vector makes the size SIZE_MAX
  (`C27_pop_empty_refuted`); `push_back(v[i])` and `insert(it, v[i])` read the
  argument after the array was replaced or moved (`C27_push_own_element_refuted`,
  `C27_insert_own_element_refuted`); `at(size())` is accepted
  (`C27_at_size_refuted`).
* C28: `pop` on an empty stack makes the size SIZE_MAX (`C28_pop_empty_refuted`);
  `make_next` returns an element with an old value (`C28_make_next_stale`).
* C30: `String::erase(start, num)` erases to the end of the text whenever
  `start + num > len - start` (`C30_erase_to_end`, `C30_erase_refuted`), and writes
  out of bounds when `start > len` (`C30_erase_beyond_refuted`); `find_last_of`
  with its default argument finds nothing (`C30_find_last_default_refuted`);
  `toLower` changes nothing (`C30_lower_refuted`); appending a String to itself is
  undefined (`C30_self_append_refuted`).
* C31: `mmap` failure (`MAP_FAILED`) is not recognised: a region at address
  2^64-1 is entered and later allocations return addresses in it
  (`C31_map_failed_refuted`); sizes near 2^64 wrap around and "succeed"
  (`C31_huge_refuted`); a minimal alignment above the page size can make
  allocations fail and leaves an empty region behind (`C31_big_alignment_refuted`).
* C32: `CVfnPtr::Init` does not check the allocation; without memory it writes to
  address 0 (`C32_out_of_memory_refuted`).
* C55: `SetRE` of one code buffer makes the page of another, unfinished one
  read-only, the next write faults (`C55_shared_region_refuted`); when an allocation
  fails, `push` has already raised `m_AllocatedSize` and the next `push` overwrites
  the memory behind the block (`C55_no_memory_refuted`).
* C37: `UTIL_Relatize2` returns true for a text that was cut off
  (`C37_truncated_refuted`); asked for the directory itself with a slash at the end it
  returns "/", the root (`C37_same_directory_refuted`); with repeated slashes in the
  first path `UTIL_BadRelatize` goes up too far (`C37_double_slash_refuted`).
* C39: the width of the number is not kept when it has more than three digits
  (`C39_width_refuted`); version 999 becomes "100" while 1000 is returned
  (`C39_overflow_refuted`); a name without a number loses its last character
  (`C39_no_number_refuted`); with a number of one or two digits an array of
  strlen + 1 bytes is accepted and overrun (`C39_overrun_refuted`); the empty name
  makes it write in front of the array (`C39_empty_refuted`).
* C40: `InterfaceSearch` (and `VInterfaceMatch`) never return for a name without a
  version which the factory does not know, because -1 from `FormatIface` counts as
  "go on" (`C40_nontermination_refuted`, `C40_match_nontermination_refuted`); one
  version past the maximum is asked (`C40_past_maximum_refuted`); with the maximum 999
  version 100 is asked after 999 (`C40_wraps_refuted`); `VInterfaceMatch` reads in
  front of its buffer for names of digits only and for the empty name
  (`C40_underflow_refuted`).
* C41: ids of the list are never reused, but the id a plugin is told in its Load
  callback (and uses for its hooks) is: `Retry` loads under a new id, puts the old id
  into the object and gives the new id away again (`C41_told_id_refuted`).
* C43: `already` is also true when the entry was a failed one and the file is loaded
  anew under a new id (`C43_already_means_entry`).
* C45: `Retry` and `UnloadAll` load and unload plugins without telling anybody
  (`C45_nothing_else`, `C45_retry_refuted`); failed loads are announced with
  `OnPluginLoad` (`C45_failed_load_announced_refuted`).
* C42: a plugin that unregisters a variable in its Load callback makes
  `UnregisterConVar` read its own uninitialised `m_Status`
  (`C42_unreg_in_load_refuted`). A plugin that refuses to load while a hooked function
  runs keeps its library until the function has returned; an unload in that time
  calls its Unload callback although it never was loaded, and later the library is
  closed twice through a freed object (`C42_refused_unload_refuted`); a failing
  `Retry` in that time does this by itself (`C42_retry_refuted`).
* C46: hooks are registered under the id the plugin was told. After a successful
  `Retry` that is not the id in the list: unloading the plugin leaves its hooks behind
  with their code gone (`C46_retry_refuted`), pausing it does not pause them, and
  unloading the next plugin, which gets the told id, removes them
  (`C46_retry_shared_refuted`). A hook added by a paused plugin runs
  (`C46_paused_adds_refuted`).
* C49: a line of more than 254 bytes is read in pieces, each of which is a plugin of its
  own (`C49_long_line_refuted`); white space inside quotes is part of the file name
  (`C49_quoted_white_refuted`); an alias before a path that begins with '/', '.' or a
  quote is taken for the path itself (`C49_alias_refuted`).
* C57: an absolute path is used as a format string, so `%` in it reads arguments that do
  not exist; the empty name reads past its terminator (`C57_format_refuted`).
* C51: if the core could not be loaded and the game's DLLInit returns false, the loader
  dereferences NULL (`C51_failed_init_refuted`). If the interface is requested twice
  before DLLInit, the loader's own function is saved as the original and DLLInit calls
  itself for ever (`C51_second_request_refuted`). The handles of cached libraries are
  kept after they were freed, so that a later request uses a closed library
  (`C51_stale_library_refuted`). A hook somebody puts directly into the init entry while
  DLLInit runs is lost (`C51_hook_lost`).
* C50: the end of the search-path section is not noticed, so that "Game" entries of any
  later section count (`C50_section_refuted`). If no library is found, the first call
  returns false and every later call true with no paths (`C50_second_call_refuted`).
  Quotes around keys and values are taken literally (`C50_quotes_refuted`); values are
  cut to 127 characters (`C50_long_refuted`).
* C54: two prototypes that differ only in the copy constructors share one manager, which
  then calls the first one's (`C54_copy_ctor_refuted`); even a request without the
  required copy constructor is granted in this way (`C54_missing_copy_ctor`). A release
  too many destroys another manager if the address is in use again
  (`C54_stale_release`). On 64-bit Linux every request is answered NULL
  (`C54_linux64`).
* C58: on 64-bit Windows objects by value are always taken to be returned in memory,
  because `flags & OCtor|ODtor|CCtor` is never zero: a missing parenthesis at
  sourcehook_hookmangen_x86_64.cpp:1268 (`C58_object_msvc64`,
  `C58_small_object_refuted`). Small plain structs are in fact returned in RAX, so that
  a hook on such a function uses a hidden pointer that is not there.
* C59: on 32-bit Linux and macOS the flag for by-value objects with destructors is part
  of the reported description, which therefore does not match the requested one
  (`C59_forced_refuted`).
* C60: `mov(reg, int)` of the 64-bit writer clears the upper half of the register; negative
  values do not arrive (`C60_mov_negative_refuted`). The generator uses it for int
  parameters only, where this does no harm.
* C63: the 64-bit hook function sets `prev_res` from `cur_res` right after resetting the
  latter and before the call of the handler (sourcehook_hookmangen_x86_64.cpp:701-706), not
  after it: META_RESULT_PREVIOUS is always MRES_IGNORED in handlers called by a generated
  function (`C63_prev_refuted`).
* C63: the destructors of the temporary result objects are called after the result has been
  loaded into rax (490-511), which they may change: a hooked function that returns an object
  with a destructor returns a wrong address (`C63_object_result_refuted`).
* C63: the result of a handler or of the original that is an object in a register
  (PassFlag_RetReg) is not stored (1059-1062, an assertion only, empty in release builds), though
  it is loaded at the end (1143-1144): the value is lost (`C63_register_object_refuted`).
* Seen in the same file, without theorem: by-value object parameters
  are not copied, so that handlers and the original function get the same object, although
  the callee destroys it in this calling convention.
* C64: "meta unload 3d" unloads plugin number 3, not the plugin loaded as "3d": a name is looked up
  only if atoi gives 0 and the first character is a letter (`C64_digit_name_refuted`). A plugin
  loaded by an absolute path cannot be unloaded by it; a path with a doubled separator is "already
  loaded" but not found by unload (strcmp here, PathCmp there, `C64_other_name_refuted`). The
  number 4294967297 means plugin 1 (`C64_number_refuted`).
* C64: loading a plugin whose earlier attempt failed reports "is already loaded" although it was
  loaded by this command (`C64_already_refuted`).
* C64: the numbers in the list for clients are not the plugins' numbers
  (`C64_client_number_refuted`).
* C64: "meta info" prints an uninitialised array if QueryRunning of a plugin returns false without
  writing a message (`C64_info_refuted`).
* C65: MakePageWritable gives a second page the rights of the first if the pointer is not aligned
  and lies in both; it may lose the right to execute (`C65_straddle_refuted`). vtable slots are
  aligned. ModuleInMemory says true for mappings that cannot be read, and false for ranges in two
  adjacent mappings (`C65_module_refuted`). Without /proc its answer is inverted: true if the read
  faults, false if it does not (sh_memory.h:310-326, `C65_fallback_refuted`); Revert would then write
  to unmapped memory and leave mapped slots patched. The FreeBSD branch compares `r` three times
  (118-122, `C65_bsd_refuted`). Another module mapped at the address of an unloaded one cannot be
  told from it (Revert then writes into it); without theorem.
* C67 (sourcehook_hookmangen_x86.h): IA32_Mov_Reg_Rm_DispAuto, IA32_Fld_Mem32/64_DispAuto test only
  `disp <= SCHAR_MAX`, so that displacements below -128 are cut to 8 bits (`C67_mov_disp_refuted`,
  `C67_fld_disp_refuted`), and displacement 0 from EBP is encoded as an absolute address whose bytes
  are those of the next instructions (`C67_mov_ebp_refuted`). IA32_Fstp_Mem32/64_DispAuto announce
  four displacement bytes and write one, for displacements from 127 on and from -128 down
  (`C67_fstp_disp_refuted`). IA32_Call_Rm writes a jump (`C67_call_rm_refuted`; not used by the
  generator). IA32_IMul_Reg_Imm8/32 always write EAX (`C67_imul_refuted`; not used).
* C66: MSVC x64, incremental linking: the distance of the jump is read as unsigned, so that thunks
  behind a jump backward are not found (sh_memfuncinfo.h:94, `C66_msvc64_backward_refuted`).
  Pointers to members of classes with virtual bases have the size of those with multiple
  inheritance on x64 and are not refused; the hook goes to the wrong object
  (`C66_msvc64_virtual_refuted`). 32 bits, unknown inheritance: delta is counted twice
  (280-281, `C66_msvc32_unknown_refuted`). A non-virtual function whose code is a tail call of a
  virtual one is taken for it (`C66_msvc_tailcall`).
* C66: SH_CALL of a non-virtual function ignores the hooks on the first virtual function
  (`C66_call_nonvirtual_refuted`). Adjustments of 4 GB are truncated (`C66_gcc_truncation_refuted`).
* C66: SH_MCALL calls the function with a this pointer without thisptroffs, RETURN_META_MNEWPARAMS
  looks in the wrong vtable if thisptroffs is not 0 (sourcehook.h:918-928, 650-684,
  `C66_manual_this_refuted`). SH_MANUALHOOK_RECONFIGURE does not change the thisptroffs used by
  SH_ADD_MANUALHOOK (901-907, `C66_manual_reconfigure_refuted`).
* C69 (sourcehook_hookmangen_x86.cpp): on GCC an object with a destructor passed by value arrives as a hidden
  reference; PushObject (367-439) copies from the place of the reference instead of the object, so
  that handlers and the original get an object whose first word is an address
  (`C69_object_refuted`). SetupHookLoop, EndContext and the functions of the context are called with
  a stack pointer that is not a multiple of 16 (`C69_alignment_refuted`). Signalling NaNs become quiet
  (`C69_float_refuted`). A vtable pointer more than 128 bytes before the object's address is not
  found (`C69_offset_refuted`).
* C70 (loader/serverplugin.cpp): Load edits the table of virtual functions before it knows whether it will
  succeed, and edits it again at the next try. After a Load which failed behind line 104 (core
  library missing, no GetVspBridge, core refuses) and a second one which succeeds, the engine's calls
  reach the wrong functions, with other parameters (`C70_slots_refuted`).
* C70 (loader/serverplugin.cpp 210-220): Unload closes the core library but leaves vsp_bridge pointing into
  it; a second Unload or GetPluginDescription calls unmapped code. With Metamod as game library the
  same happens when DLLShutdown comes before Unload (`C70_dangling_refuted`).
* C70 (loader/loader.cpp 174-181): CreateInterface returns NULL for every name once the server plugin is
  loaded, also when Metamod is the game library and its core could answer
  (`C70_query_refuted`): who asks the game library's factory after the listener started gets nothing.
* C70 (core/vsp_bridge.cpp 108-114): the loop leaves gameclients NULL for a game which has
  ServerGameClients003 only (`C70_clients_loop_refuted`); harmless, since the provider searches again.
* C71 (core/metamod.cpp 1072-1089): NotifyVSPListening calls the listeners before it sets g_bIsVspBridged.
  A plugin that calls EnableVSPListener from OnVSPListening makes Metamod send plugin_load although the
  server plugin is there (`C71_command_late_refuted`); harmless, the loader refuses the second load.
* C72 (core/metamod.cpp 442): `SaveAndSet<bool>(&g_logging, true);` declares no variable. The object is
  destroyed at the semicolon and the guard against nested messages has no effect: a plugin that logs in
  a hook on LogPrint recurses without end (`C72_guard_refuted`: any depth), and since the buffer is
  static the nested text replaces the message that caused it (`C72_lost_refuted`).
* C72 (core/metamod.cpp 447-456): a message of more than 2045 characters loses its newline, since vsnprintf
  puts the terminator one byte before the place where the newline goes (`C72_newline_refuted`); the
  next line is glued to it.
* C72 (core/metamod.cpp 447-451): `len < 0` is never true for a size_t. If vsnprintf fails, the old contents
  of the buffer are written (`C72_error_refuted`).
* C73 (provider_source2.cpp 404-413): Hook_UnregisterLoopMode takes the hooks off the factory but not off the
  modes it made. If a factory is unregistered while a mode lives, Hook_DestroyLoopMode does not run, and a
  later mode at the same address is announced twice or wrongly (`C73_unregister_refuted`).
* C73 (provider_source2.cpp 415-423): META_RESULT_ORIG_RET is used where META_RESULT_STATUS decides which mode
  the engine will use. With a plugin that overrides CreateLoopMode the wrong object is hooked
  (`C73_override_refuted`); if the result is null, SH_ADD_HOOK dereferences it (`C73_null_refuted`).
* C74 (provider_source2.cpp 63-68, provider_source.cpp 80-84, gamedll_bridge.cpp 39-57): "Metamod cannot load" is
  shown when the engine is missing, but the start goes on and calls engine->GetGameDir
  (`C74_missing_refuted`). The same for the file system of Source 2: logged at 84, dereferenced at 118.
* C74 (provider_source.cpp 141-154): the hook on ClientCommand is never removed by the Source 1 provider
  (`C74_client_hook_refuted`); CompleteShutdown of SourceHook does it afterwards.
* C75 (provider_source.cpp 540-542): the distance from Error to Detour_Error is cut to 32 bits. On x86-64
  two libraries may be farther apart than 2^31; then a game which calls Error for the first bad number
  sends the processor to a wrong address (`C75_far_refuted`, `C75_cache_error_64` says exactly when).
* C76 (provider_source2.cpp 275-284, metamod.cpp 176-190, metamod_console.cpp 151-168): GetConVarString returns a null
  pointer for an empty variable on Source 2. DoInitialPluginLoads handles that, the level end and
  `meta refresh` pass it to "%s" (`C76_empty_refuted`).
* C76 (metamod.cpp 469-496 against 176-190): the place from the command line is used by the first load only; unless
  the engine also sets the variable, plugins are looked for elsewhere at the next level (`C76_later_refuted`).
* C76 (provider_source.cpp 344-361): GetCommandLineValue ignores its default if there is no ICvar
  (`C76_default_refuted`). No effect today, as both callers pass NULL.
* C77 (provider_source2.cpp 116-128): the test is strstr(path, "metamod") on the whole path. A server installed below a
  directory whose name contains "metamod" loses all search paths, and the place to write to
  becomes the empty name (`C77_parent_refuted`).
* C78 (gamedll.cpp 657-690): mm_PatchDllShutdown writes the entry of Disconnect without making its page writable. On
  Linux, if the table of ISource2ServerConfig begins in the last eight bytes of a page, only that page was made writable (for
  Connect), and the write goes to a protected page (`C78_protected_refuted`). On Windows the patch of slot 21 opens the page.
  mm_PatchDllShutdown does the same for Source 1 with slot 0 and the slot of DLLShutdown.
* C78 (gamedll.cpp 443-448): if the game's Init fails and the core is not there, the null bridge is used
  (`C78_failed_init_refuted`); the comment in the code suspects it.
* C78 (gamedll.cpp 825-836): the result of the game's CreateInterface for "Source2Server..." is not checked: a version the
  game does not have, or asking before "Source2ServerConfig...", is undefined (`C78_null_interface_refuted`,
  `C78_order_refuted`). Asking twice makes the loader's function call itself for ever (`C78_second_request_refuted`).
* C79 (metamod.cpp 1216, 338-341): a plugin that is in the list because an earlier attempt failed counts as "already": after
  `meta refresh` a plugin from a VDF file that fails again is reported as "already loaded", and one that loads now is reported as
  already loaded instead of loaded (`C79_report_refuted`).
* C79 (metamod.cpp 1213): an empty "file" in a VDF file is passed to GetFullPluginPath, which reads behind it; the list
  guards against it (`C79_empty_refuted`).
* C79 (metamod.cpp 1201): full_path has 255 bytes here and PATH_SIZE in the list: a plugin with a long path loads from the
  list but not from a VDF file (`C79_long_refuted`). Aliases are cut to 31 characters.
* C79 (metamod.cpp 1293): the result of UTIL_Relatize is not looked at. It fails only if one of the paths is not absolute;
  then the VDF file before is processed again (or uninitialised memory is read).
* C80 (FastDelegate.h 803-815): comparing a delegate with a function (`dg == func`) calls GetStaticFunction for the closure
  itself, which with the hack returns the address of the closure: the result is false for the function that is bound
  (`C80_function_compare_refuted`). SourceHook itself does not use this operator.
* C80 (FastDelegate.h 601-603, GCC): two delegates that make the same call in every memory need not be equal: pointers to members of base and
  derived class differ (`C80_equal_refuted`); RemoveHook with the other one finds nothing.
* C80 (FastDelegate.h 592-599, without the hack; not compiled by default): == ignores the object of methods, and compares the
  addresses of the delegates for functions: the test of m_pStaticFunction is the wrong way round (`C80_safe_equal_refuted`). Assigning 0 leaves
  m_pthis, so the delegate is not empty (`C80_safe_empty_refuted`).
* FastDelegate.h 483: for classes of unknown inheritance (MSVC) `u.s.funcaddress` does not exist: does not compile.
* C82 (provider_source_console.cpp 38-43, 49-52): Register clears m_pNext of the object before the engine is asked. If the object is already
  registered the engine's list is cut behind it or becomes a ring: following it never ends (`C82_registered_twice_refuted`).
* C82 (provider_source_console.cpp 111-122, Linux before Orange Box): if the engine's library can be opened but has no symbol for the list,
  InitConCommandBaseList returns true with m_TopConCommandBase NULL: no warning, the signature is not tried (`C82_init_refuted`), and nothing
  is ever taken out of the list, also not when a plugin's library is closed (`C82_head_unknown_refuted`). Line 89 reads `*vfunc` before line 99
  asks whether it is NULL.
* C82 (metamod.cpp 950-966): a plugin that unregisters what another plugin registered leaves it in the other's list; when the other is unloaded
  the thing is taken away from the one who has registered it since (`C82_foreign_refuted`).
* C82 (metamod_plugins.cpp 804-826): what is registered with an API that is not in the plugin list yet (from CreateInterface) or any more (from the
  function UnloadInterface_MMS) is put into the engine's list but kept for no plugin: it stays when the library is closed (`C82_untracked_refuted`).
* C83 (metamod.cpp 374-377 with metamod_util.cpp 408-414): if the directory of the engine's library cannot be made absolute, engine_path is set to
  the empty text so that the absolute path should be used; but UTIL_Relatize2 reads parts1[0] of an empty vector: undefined behaviour in
  every such case (`C83_no_directory_refuted`). If GetFileOfAddress fails (359) engine_file is used without having been written.
* C83 (metamod.cpp 386): a quote in the path of Metamod ends the argument of plugin_load (`C83_quote_refuted`); a path of the engine with many
  levels gives a command that is cut, without its closing quote and line end (`C83_cut_refuted`).
* C84 (sourcehook_pibuilder.h 100-105): the ProtoInfo pointer is of no use after an AddParam that makes the vectors grow (the seventh, for example):
  the pointers in it are to freed memory until the conversion is repeated (`C84_stale_refuted`). The same is true of a copy of the builder.
* C85 (utility.cpp 650-652): `ptr < end` leaves out the last possible place of each range: a text ending at the last byte of a segment's last page is
  missed (`C85_last_byte_refuted`; C38 is the same for the search alone). A text lying over the border of two adjoining ranges is missed (`C85_split_refuted`).
* C85 (utility.cpp 617-629, macOS): the sizes of all segments are added up and searched from the header on; with a gap between two segments the
  search reads memory that is not mapped (`C85_macho_gap_refuted`).
* C86 (provider_source.cpp 630): the answer of Read is not looked at: if fewer bytes come than Size said, what was in the scratch memory before is
  parsed as part of the file (`C86_short_read_refuted`). (625-632): if Size answers -1 the byte before the memory is overwritten (`C86_size_refuted`).
* C87 (provider_source2.cpp 304-305): registering a command removes FCVAR_DEVELOPMENTONLY also from a command its plugin made with it on purpose
  (`C87_developer_refuted`). (318-321): two plugins with a command of the same name share the engine's entry, and unloading one turns off the
  other's command (`C87_shared_refuted`). (291-295 with metamod.cpp 920-934): a command handed to RegisterConCommandBase is put among the
  variables; unloading leaves the command on and reads the object as a variable (`C87_old_function_refuted`). (154-155): m_RegisteredConVars is
  not emptied after its objects are deleted; a second shutdown would delete them again (`C87_twice_refuted`; no caller does that today).
* C88 (metamod_plugins.cpp 149-152 with metamod.cpp 973, 1017): while a plugin is being loaded its m_Status is not set, and any unregistering in that
  time, by whichever plugin, reads it (`C88_loading_refuted`).
* C89 (metamod_plugins.cpp 489-499): file_path has 256 bytes while a path may have PATH_SIZE; if the plugin's folder has more than 254 characters,
  the plugin is told a folder further up (`C89_long_folder_refuted`).
* C89 (metamod_plugins.cpp 485 with metamod.cpp 232-235): the game's path is taken from the engine as it is; if it has no separator of the system's
  kind (on Windows, one written with slashes only), strrchr gives NULL and game_dir is the address 1 (`C89_no_separator_refuted`).
