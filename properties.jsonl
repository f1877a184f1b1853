{"id": "C01", "title": "Hook ids are unique among live hooks", "statement": "A hook id returned by AddHook (when nonzero) is at least 1 and differs from the id of every other hook that is live at that moment; the id keeps denoting that same hook (same plugin, handler, instance, function, pre/post) until the hook is removed, and ids of other hooks are not changed by adding or removing hooks.", "quantifier": "every finite history of AddHook / RemoveHook / RemoveHookByID / UnloadPlugin / RemoveHookManager calls", "why_tests_cant": "ids are recycled, so uniqueness depends on the whole add/remove history; tests can only sample a few histories", "anchors": ["core/sourcehook/sourcehook_impl_chookidman.cpp: CHookIDManager::New, Remove, QueryHook", "core/sourcehook/sourcehook.cpp: CSourceHookImpl::AddHook, RemoveHookByID"]}
{"id": "C02", "title": "RemoveHookByID removes exactly one hook", "statement": "RemoveHookByID(id) returns true iff id denotes a live hook; in that case exactly that hook disappears (its handler object is destroyed) and every other live hook stays live with the same id, owner, position relative to the others and paused flag; otherwise nothing changes.", "quantifier": "every reachable SourceHook state (including during running hook loops) and every id", "why_tests_cant": "quantifies over all reachable states and over the effect on all other hooks", "anchors": ["core/sourcehook/sourcehook.cpp: CSourceHookImpl::RemoveHookByID"]}
{"id": "C03", "title": "RemoveHook removes exactly the matching hooks", "statement": "RemoveHook(plugin, instance, handler, pre/post) removes exactly those live per-instance hooks of that plugin on that function and adjusted instance, with that this-offset, an equal handler and the same pre/post flag, and returns true iff there was at least one; VP (vtable-wide) hooks are never removed by it.", "quantifier": "every reachable state and all arguments", "why_tests_cant": "the match is a conjunction of eight criteria over an unbounded set of hooks", "anchors": ["core/sourcehook/sourcehook.cpp: CSourceHookImpl::RemoveHook", "core/sourcehook/sourcehook_impl_chookidman.cpp: CHookIDManager::FindAllHooks"]}
{"id": "C04", "title": "Call order of a hooked call", "statement": "When a hooked virtual function is called on an instance and no handler changes the hook set, the handlers run are exactly: the unpaused pre hooks of that instance in the order they were added, then the unpaused vtable-wide pre hooks in order, then (possibly) the original function, then the unpaused post hooks of that instance, then the unpaused vtable-wide post hooks; each exactly once, and no handler of another instance or another function runs.", "quantifier": "every reachable state, every instance pointer, every number of hooks, all handler results", "why_tests_cant": "number of hooks and hook kinds is unbounded; tests check a few configurations", "anchors": ["core/sourcehook/sourcehook.cpp: CSourceHookImpl::SetupHookLoop, CHookContext::GetNext", "core/sourcehook/sourcehook.h: SH_CALL_HOOKS, SH_HANDLEFUNC"]}
{"id": "C05", "title": "Original function is called iff nobody superceded", "statement": "In a hooked call the original function runs at most once; it runs exactly once iff no pre handler of that call returned MRES_SUPERCEDE, it runs after all pre handlers and before all post handlers, it is the function that was in the vtable before the first hook was added, and it gets the caller's parameters.", "quantifier": "every reachable state, all handler results, including handlers that make nested hooked calls", "why_tests_cant": "depends on all combinations of handler results and nested calls", "anchors": ["core/sourcehook/sourcehook.h: SH_CALL_ORIG", "core/sourcehook/sourcehook.cpp: CHookContext::ShouldCallOrig, CVfnPtr::GetOrigCallAddr"]}
{"id": "C06", "title": "Return value of a hooked call", "statement": "A hooked call returns the value given by the last handler that returned MRES_OVERRIDE or MRES_SUPERCEDE if there was one, and otherwise the value returned by the original function.", "quantifier": "every sequence of handler results (res, value), any number of pre/post handlers", "why_tests_cant": "all result combinations for any number of handlers", "anchors": ["core/sourcehook/sourcehook.h: SH_CALL_HOOKS, SH_RETURN", "core/sourcehook/sourcehook.cpp: CHookContext::GetOverrideRetPtr, GetOrigRetPtr"]}
{"id": "C07", "title": "META status and previous result seen by handlers", "statement": "While a handler runs, META_RESULT_STATUS is the maximum result of the handlers of this call that already finished (MRES_IGNORED if none), and META_RESULT_PREVIOUS is the result of the handler that ran immediately before it in the same (pre or post) phase, MRES_IGNORED for the first handler of the phase; nested hooked calls made by handlers do not disturb them.", "quantifier": "every history, every nesting of hooked calls inside handlers", "why_tests_cant": "nesting depth and the order of API calls inside handlers are unbounded", "anchors": ["core/sourcehook/sourcehook.cpp: CSourceHookImpl::GetStatus, GetPrevRes, SetRes", "core/sourcehook/sourcehook.h: SH_CALL_HOOKS"]}
{"id": "C08", "title": "vtable entries are patched and restored exactly", "statement": "At every moment a vtable slot holds a SourceHook hook function iff at least one hook is live on it; when the last hook on a slot is removed the slot holds exactly the value it had before the first hook was added; slots without hooks are never written.", "quantifier": "every history of API calls, with page protection changes succeeding and the module staying mapped", "why_tests_cant": "history of arbitrary length with overlapping hooks by different plugins", "anchors": ["core/sourcehook/sourcehook_impl_cvfnptr.cpp: CVfnPtr::Patch, Revert, AddHookMan, HookManRemoved", "core/sourcehook/sourcehook.cpp: RevertAndRemoveVfnPtr"]}
{"id": "C09", "title": "Handler objects are destroyed exactly once and never called afterwards", "statement": "For each successful AddHook, the handler object passed in is destroyed (DeleteThis) at most once, it is destroyed when the hook is removed by any of the removal functions, it is not destroyed while the hook is live, and the dispatcher never invokes a destroyed handler.", "quantifier": "every history in which each handler object is passed to AddHook once", "why_tests_cant": "double free / use after free depends on rare interleavings of removal and running loops", "anchors": ["core/sourcehook/sourcehook.cpp: RemoveHookByID", "core/sourcehook/sourcehook_impl_ciface.h: CIface::~CIface"]}
{"id": "C10", "title": "Removing hooks from inside a handler neither skips nor repeats others", "statement": "If handlers remove hooks (themselves or others) while the hook loop runs, every hook of the list that is still live and unpaused when its turn comes is run exactly once in order, and a removed hook that has not run yet is not run.", "quantifier": "every hook list, every position of the running handler, every set of removals performed at each step", "why_tests_cant": "the number of (position, removed set) combinations is unbounded", "anchors": ["core/sourcehook/sourcehook.cpp: CHookContext::HookRemoved, RemoveHookByID, CHookContext::GetNext"]}
{"id": "C11", "title": "Removing the last hook of a function from a handler", "statement": "If a handler removes the last hook on the function being dispatched, no further handler is run in that call, and the original function (unless superceded) is still called exactly once at the right address.", "quantifier": "every reachable state during a running hook loop", "why_tests_cant": "needs the state of the running loop and of the removed function object at the same time", "anchors": ["core/sourcehook/sourcehook.cpp: CHookContext::VfnPtrRemoved, RevertAndRemoveVfnPtr"]}
{"id": "C12", "title": "Hooks added from inside a handler", "statement": "A hook added by a handler to the instance/phase currently being iterated is appended and is run later in the same call; adding hooks never makes an already-run handler run again in the same call.", "quantifier": "every reachable state during a running hook loop, any number of added hooks", "why_tests_cant": "unbounded number of additions at any iteration point", "anchors": ["core/sourcehook/sourcehook.cpp: AddHook, CHookContext::GetNext"]}
{"id": "C13", "title": "Recall (RETURN_META_*_NEWPARAMS)", "statement": "After a handler returns through RETURN_META_NEWPARAMS, the handlers that already ran in this call are not run again, the remaining handlers and the original function are run with the new parameters under the usual rules (status and override value carried over), the outer loop does not run any more handlers or the original, and the outer call returns exactly what the recalled call returned.", "quantifier": "every reachable state, recall from any pre or post handler, repeated recalls", "why_tests_cant": "arbitrary depth of recalls from arbitrary positions", "anchors": ["core/sourcehook/sourcehook.cpp: CSourceHookImpl::DoRecall, SetupHookLoop", "core/sourcehook/sourcehook.h: RETURN_META_VALUE_NEWPARAMS"]}
{"id": "C14", "title": "Recall keeps the previous result", "statement": "Status variables like status, previous result and override return are kept across a recall: the first handler run after a recall sees in META_RESULT_PREVIOUS the result of the handler that issued the recall.", "quantifier": "every recall from a pre handler with a following handler", "why_tests_cant": "documented only in a design comment; no test reads META_RESULT_PREVIOUS across a recall", "anchors": ["core/sourcehook/sourcehook_impl.h: design notes (Recalls)", "core/sourcehook/sourcehook.cpp: SetupHookLoop", "core/sourcehook/sourcehook.h: SH_CALL_HOOKS"]}
{"id": "C15", "title": "SH_CALL bypasses hooks", "statement": "SH_CALL on a hooked function runs the original function exactly once with the given arguments and returns its value, runs no handler for that call, and afterwards the hook context depth and the hooks are as before, so that an ordinary call made later (or made inside the original) is dispatched to hooks normally.", "quantifier": "every reachable state, any nesting inside handlers", "why_tests_cant": "nesting depth and combination with other operations is unbounded", "anchors": ["core/sourcehook/sourcehook.cpp: SetIgnoreHooks, ResetIgnoreHooks, SetupHookLoop", "core/sourcehook/sourcehook.h: ExecutableClassN::operator()"]}
{"id": "C16", "title": "SH_CALL only bypasses the function it is used on", "statement": "SH_CALL on function f disables hooks for that call of f only; a hooked call of a different function g made by f's original code runs g's hooks.", "quantifier": "every reachable state and every pair of functions, including f with no hooks", "why_tests_cant": "depends on which functions happen to be hooked at run time", "anchors": ["core/sourcehook/sourcehook.cpp: SetIgnoreHooks (parameter vfnptr), SetupHookLoop"]}
{"id": "C17", "title": "Pausing", "statement": "A paused hook (by id or by pausing its plugin) is never run while paused and keeps its position; unpausing restores it; pausing or unpausing a plugin affects exactly the hooks that plugin owns at that moment, and returns/does nothing for unknown ids.", "quantifier": "every reachable state, also while loops are running", "why_tests_cant": "unbounded hook sets and histories", "anchors": ["core/sourcehook/sourcehook.cpp: SetHookPaused, PausePlugin, UnpausePlugin", "core/sourcehook/sourcehook_impl.h: CHookContext::SkipPaused"]}
{"id": "C18", "title": "UnloadPlugin removes everything the plugin owns", "statement": "After UnloadPlugin(p) no live hook and no hook manager belongs to p, all hooks of other plugins are still live with the same ids and order, and functions still hooked by others are dispatched by a hook manager of a plugin other than p.", "quantifier": "every reachable state, also inside running loops", "why_tests_cant": "unbounded set of plugins/hooks/managers", "anchors": ["core/sourcehook/sourcehook.cpp: UnloadPlugin, RemoveHookManager"]}
{"id": "C19", "title": "Deferred unload notification", "statement": "For each UnloadPlugin(p, listener) the listener is notified at most once; if no hook loop is running it is notified immediately; otherwise it is not notified until the hook-context stack has become empty twice (or resolution is forced), so that when it is notified no hook loop that was running at the time of UnloadPlugin is still on the call stack.", "quantifier": "every history of calls, loops and unloads", "why_tests_cant": "depends on the schedule of nested loops and unloads", "anchors": ["core/sourcehook/sourcehook.cpp: UnloadPlugin, ResolvePendingUnloads, EndContext"]}
{"id": "C20", "title": "Hook manager selection", "statement": "While a function is hooked, the vtable slot points to the hook function of the highest-version manager among those registered for the slot (the earliest registered among equals); a manager is told to register when it becomes active on its first slot and to unregister when it is active on none, never twice in a row.", "quantifier": "every history of hook additions, removals and manager removals", "why_tests_cant": "unbounded number of managers/versions/slots", "anchors": ["core/sourcehook/sourcehook_impl_cvfnptr.cpp: AddHookMan, HookManRemoved", "core/sourcehook/sourcehook_impl_chookmaninfo.cpp: IncrRef, DecrRef"]}
{"id": "C21", "title": "Dispatcher memory safety and balanced context stack", "statement": "For every history of API calls and hooked/nested/SH_CALL/recall calls that respects the API discipline (functions are called on objects, through the vtable position the hook function was made for, and original vtable entries are even; a handler recalls only the function it was called for, while that function has hooks; a hook-manager function is not shared between plugins; a list of hooks that is being iterated is not emptied and refilled meanwhile; a hook manager is not removed while its plugin has hooks on its functions), the dispatcher never dereferences a destroyed object, and every hooked call leaves the context stack as deep as it found it (unless an SH_CALL of an unhooked function is running).", "quantifier": "every disciplined history, unbounded nesting", "why_tests_cant": "absence of use-after-free over all interleavings", "anchors": ["core/sourcehook/sourcehook.cpp: all of CSourceHookImpl", "core/sourcehook/sourcehook_impl.h: CHookContext"]}
{"id": "C22", "title": "Deferred thunk cleanup happens exactly once", "statement": "The trampoline generated for an odd original vtable entry is released exactly once, after the last running hook loop on that slot has ended, and the clean-up object is not used again.", "quantifier": "every history with hooked functions whose original entry is odd", "why_tests_cant": "needs removal inside a running loop followed by further loops that reuse the same stack slot", "anchors": ["core/sourcehook/sourcehook.cpp: RevertAndRemoveVfnPtr, EndContext, CHookContext::DoCleanupTaskAndDeleteIt", "core/sourcehook/sh_stack.h: CStack::make_next"]}
{"id": "C23", "title": "Complete shutdown", "statement": "After CompleteShutdown no hook is live, every handler object has been destroyed and every vtable slot that was ever hooked holds its original entry again.", "quantifier": "every reachable state", "why_tests_cant": "unbounded hook sets", "anchors": ["core/sourcehook/sourcehook.cpp: CompleteShutdown"]}
{"id": "C24", "title": "RemoveHookManager also removes the hooks that use it", "statement": "RemoveHookManager(plugin, manager) (used by SH_MANUALHOOK_RECONFIGURE) removes the manager and automatically removes all hooks of the plugin attached to it.", "quantifier": "every reachable state", "why_tests_cant": "depends on whether other plugins registered managers for the same slot", "anchors": ["core/sourcehook/sourcehook.cpp: RemoveHookManager", "core/sourcehook/sourcehook.h: ISourceHook::RemoveHookManager documentation"]}
{"id": "C25", "title": "Prototype compatibility test", "statement": "The prototype comparison used to match hook managers is symmetric; it is reflexive on valid prototypes; it never equates prototypes that differ in the number of parameters or in the real size of any parameter or of the return value; exact equality is an equivalence relation and implies compatibility for valid prototypes.", "quantifier": "all prototype descriptions (both format versions, any number of parameters)", "why_tests_cant": "the space of prototypes is infinite", "anchors": ["core/sourcehook/sourcehook_impl_cproto.cpp: Fill, operator==, ExactlyEqual", "core/sourcehook/sourcehook_impl_cproto.h: IntPassInfo::operator=="]}
{"id": "C26", "title": "SourceHook::List behaves like a sequence", "statement": "Any sequence of push_back/push_front/insert/erase/remove/find/clear/iteration on the doubly linked list behaves as the same operations on a mathematical sequence; iterators to other elements stay valid across insertion and erasure; the links stay consistent (walking forward and backward give mirrored sequences).", "quantifier": "all operation sequences and all element values", "why_tests_cant": "pointer-structure consistency for all histories", "anchors": ["core/sourcehook/sh_list.h: List"]}
{"id": "C27", "title": "SourceHook::CVector behaves like an array", "statement": "Any sequence of push_back/pop_back/insert/erase/resize/reserve/clear behaves as on a mathematical sequence, growth never loses or reorders elements, and size never exceeds the allocated capacity.", "quantifier": "all operation sequences", "why_tests_cant": "all sizes and growth patterns", "anchors": ["core/sourcehook/sh_vector.h: CVector"]}
{"id": "C28", "title": "SourceHook::CStack is LIFO and never moves elements", "statement": "push/pop/front/at behave as a stack; a reference to an element stays valid (same element) until that element is popped, however many elements are pushed meanwhile; make_next does not change any element below the new top.", "quantifier": "all operation sequences", "why_tests_cant": "reference stability over all histories, sector boundary cases", "anchors": ["core/sourcehook/sh_stack.h: CStack"]}
{"id": "C29", "title": "THash behaves like a finite map", "statement": "Any sequence of insert/remove/lookup/clear on the hash table behaves as on a finite map with distinct keys, whatever the hash function and whenever the table is rehashed; iteration visits each stored key exactly once.", "quantifier": "all operation sequences, all hash functions", "why_tests_cant": "collisions and rehash points depend on hash values and history", "anchors": ["core/sourcehook/sh_tinyhash.h: THash"]}
{"id": "C30", "title": "SourceHook::String operations", "statement": "append/assign/compare/substr/find_first_of/trim behave as on mathematical character sequences for all contents; erase(start, num) removes exactly num characters from start.", "quantifier": "all strings and indices", "why_tests_cant": "off-by-one conditions for all lengths and offsets", "anchors": ["core/sourcehook/sh_string.h: String"]}
{"id": "C31", "title": "Executable page allocator", "statement": "Blocks returned by the page allocator and not yet freed lie inside one allocated region, respect the requested alignment, are at least as large as requested and are pairwise disjoint; freeing a block affects no other live block; a region is released to the OS iff no live block remains in it.", "quantifier": "all sequences of Alloc/AllocIsolated/Free with all sizes and alignments, all OS page addresses", "why_tests_cant": "fragmentation patterns are unbounded", "anchors": ["core/sourcehook/sh_pagealloc.h: CPageAlloc"]}
{"id": "C32", "title": "Odd-entry trampoline jumps to the original", "statement": "Executing the generated trampoline transfers control exactly to the original entry address, for every pair of trampoline and target addresses, and the trampoline occupies at most the 12 bytes allocated for it.", "quantifier": "all 64-bit address pairs", "why_tests_cant": "2^128 address pairs", "anchors": ["core/sourcehook/sourcehook_impl_cvfnptr.cpp: CVfnPtr::Init"]}
{"id": "C33", "title": "Path comparison", "statement": "The path comparison is an equivalence relation: two paths compare equal iff they are the same character sequence after every run of separators is collapsed into one.", "quantifier": "all pairs of strings (POSIX build)", "why_tests_cant": "all string pairs", "anchors": ["core/metamod_util.cpp: UTIL_PathCmp", "loader/utility.cpp: mm_PathCmp"]}
{"id": "C34", "title": "Bounded formatting", "statement": "Formatting into a buffer of n>0 bytes writes at most n bytes including the terminator, always terminates the string inside the buffer, returns the number of characters before the terminator, and yields the longest prefix of the full text that fits; path formatting additionally leaves no alternate separator character.", "quantifier": "all texts and buffer sizes n>0", "why_tests_cant": "all lengths around the buffer boundary", "anchors": ["core/metamod_util.cpp: UTIL_FormatArgs", "loader/utility.cpp: mm_FormatArgs, mm_PathFormat"]}
{"id": "C35", "title": "Trimming and comment stripping", "statement": "Trimming removes exactly the leading (resp. trailing) white space and nothing else; comment stripping keeps exactly the text before the first '//' ; both are idempotent.", "quantifier": "all strings", "why_tests_cant": "all strings", "anchors": ["core/metamod_util.cpp: UTIL_TrimLeft, UTIL_TrimRight", "loader/utility.cpp: mm_TrimLeft, mm_TrimRight, mm_TrimComments"]}
{"id": "C36", "title": "Key/value splitting", "statement": "KeySplit stores in the first buffer the first white-space delimited word and in the second the rest of the line after the following white space (each truncated to the given length), and never writes outside len+1 bytes of either buffer.", "quantifier": "all strings and buffer lengths", "why_tests_cant": "buffer overflow conditions for all lengths", "anchors": ["loader/utility.cpp: mm_KeySplit"]}
{"id": "C37", "title": "Relative path computation", "statement": "For absolute normalized paths the relative path produced, when appended to the source directory and normalized, denotes the target path.", "quantifier": "all pairs of absolute paths", "why_tests_cant": "all component lists with arbitrary common prefixes", "anchors": ["core/metamod_util.cpp: UTIL_Relatize, UTIL_Relatize2"]}
{"id": "C38", "title": "Pattern search", "statement": "The signature search returns the first address in the searched range where every non-wildcard byte of the pattern matches, and returns nothing iff there is none; it reads only inside the range.", "quantifier": "all memory contents, patterns and range sizes", "why_tests_cant": "off-by-one at the end of the range, all contents", "anchors": ["loader/utility.cpp: mm_FindPattern", "core/metamod_util.cpp: UTIL_VerifySignature"]}
{"id": "C39", "title": "Interface name increment", "statement": "FormatIface on a name with a numeric suffix of at least three digits denoting n<999 rewrites the suffix to n+1 in the same width and returns n+1, leaving the rest unchanged and staying inside the buffer documented as sufficient (strlen+4).", "quantifier": "all names and buffer sizes", "why_tests_cant": "all names incl. carry and width changes", "anchors": ["core/metamod.cpp: MetamodSource::FormatIface"]}
{"id": "C40", "title": "Interface search terminates and is exhaustive", "statement": "InterfaceSearch terminates for every factory and name, queries each version from the given one up to the maximum at most once in increasing order, and returns the first interface the factory provides.", "quantifier": "all factories, names and maxima", "why_tests_cant": "non-termination cannot be tested; all factories", "anchors": ["core/metamod.cpp: MetamodSource::InterfaceSearch, VInterfaceMatch"]}
{"id": "C41", "title": "Plugin ids are unique and never reused", "statement": "Two plugins that are in the list at the same time have different ids, ids are at least 1, and an id returned for a plugin is not given to another plugin later.", "quantifier": "every history of Load/Unload/Retry/UnloadAll calls", "why_tests_cant": "depends on history, including failed loads and retries", "anchors": ["core/metamod_plugins.cpp: CPluginManager::Load, _Load, Retry"]}
{"id": "C42", "title": "Plugin status machine", "statement": "Pause succeeds only on running plugins and Unpause only on paused ones; a plugin is called (Pause/Unpause/Unload callbacks) only in the state allowed by its status; after a successful Unload the id is no longer known; a failed non-forced Unload leaves the plugin in place; after a forced Unload it is gone.", "quantifier": "every history and every plugin behaviour (results of callbacks are arbitrary)", "why_tests_cant": "callback results and histories are arbitrary", "anchors": ["core/metamod_plugins.cpp: _Pause, _Unpause, _Unload, UnloadAll"]}
{"id": "C43", "title": "A file is loaded at most once", "statement": "At every moment at most one successfully loaded (running or paused) plugin has a given file path; loading a file that is already loaded reports 'already' and returns the existing id without calling into the plugin.", "quantifier": "every history of loads with equivalent spellings of paths", "why_tests_cant": "all spellings and histories", "anchors": ["core/metamod_plugins.cpp: CPluginManager::Load", "core/metamod_util.cpp: UTIL_PathCmp"]}
{"id": "C44", "title": "Aliases behave like a map", "statement": "SetAlias/LookupAlias behave like a finite map with case-insensitive or exact keys as implemented: the last value set wins, setting an empty value deletes, lookups of unknown aliases fail and no alias occurs twice.", "quantifier": "every history of SetAlias calls", "why_tests_cant": "all histories", "anchors": ["core/metamod_plugins.cpp: SetAlias, LookupAlias"]}
{"id": "C45", "title": "Listener notifications", "statement": "Load/pause/unpause/unload events are delivered exactly once to every listener of every other suitable plugin and never to the plugin the event is about.", "quantifier": "every set of plugins and listeners", "why_tests_cant": "unbounded listener sets", "anchors": ["core/metamod_plugins.cpp: ITER_EVENT uses in _Load, _Unload, _Pause, _Unpause"]}
{"id": "C46", "title": "Plugin hooks follow the plugin", "statement": "After a plugin has been unloaded, no hook that plugin registered remains; while it is paused none of its hooks runs.", "quantifier": "every history of plugin manager and hook operations, including Retry", "why_tests_cant": "cross-component invariant over all histories", "anchors": ["core/metamod_plugins.cpp: _Unload, _Pause, Retry", "core/sourcehook/sourcehook.cpp: UnloadPlugin, PausePlugin"]}
{"id": "C47", "title": "UnloadAll empties the list", "statement": "UnloadAll terminates with an empty plugin list whatever the plugins answer.", "quantifier": "every plugin list and every callback behaviour", "why_tests_cant": "all callback behaviours", "anchors": ["core/metamod_plugins.cpp: UnloadAll"]}
{"id": "C48", "title": "Factory query precedence", "statement": "MetaFactory answers the built-in interface names itself and otherwise asks the plugins' listeners in list order, returning the first non-null answer together with the id of the plugin that gave it, or null with id 0 when none answers.", "quantifier": "all plugin lists, listeners and names", "why_tests_cant": "unbounded lists", "anchors": ["core/metamod.cpp: MetamodSource::MetaFactory"]}
{"id": "C49", "title": "Plugin file line parsing", "statement": "Each line of the plugin file yields at most one plugin: comments, blank lines and lines consisting of white space yield none; an optional alias in the documented syntax is separated from the path; the extracted path and alias contain no surrounding quotes or white space.", "quantifier": "all lines", "why_tests_cant": "all strings", "anchors": ["core/metamod.cpp: LoadPluginsFromFile"]}
{"id": "C50", "title": "Game library detection", "statement": "The detected list of game library paths has at most ten entries, contains no two paths that compare equal, never contains the loader's own path and contains only existing files, in order of their appearance in the search-path section of gameinfo.", "quantifier": "all gameinfo files and file systems", "why_tests_cant": "all file contents", "anchors": ["loader/gamedll.cpp: mm_DetectGameInformation"]}
{"id": "C51", "title": "Temporary vtable patch of the game library is undone", "statement": "The loader's patch of the game's init entry is undone exactly: after initialization the vtable slot holds the original entry, the original init function is called exactly once per engine call whether or not loading succeeds, and the shutdown entry stays patched iff initialization succeeded with the core loaded.", "quantifier": "all outcomes of library loading and initialization", "why_tests_cant": "all combinations of failures", "anchors": ["loader/gamedll.cpp: IServerGameDLL::DLLInit, mm_PatchDllInit, mm_PatchDllShutdown"]}
{"id": "C52", "title": "Engine detection is a total decision procedure", "statement": "Engine detection returns, for every combination of available interfaces, game name and pattern matches, exactly the backend prescribed by a decision table; and it never returns a backend that has no library name.", "quantifier": "all factories (any subset of interfaces) and names", "why_tests_cant": "2^20 combinations of interfaces times names", "anchors": ["loader/loader.cpp: mm_DetermineBackendS1, backend_names"]}
{"id": "C53", "title": "Command line argument lookup", "statement": "The lookup reports whether the argument is present, stores the following word unless it starts with '-' (empty string otherwise), never writes beyond the buffer and always terminates it.", "quantifier": "all command lines and buffer sizes", "why_tests_cant": "all argument vectors", "anchors": ["loader/utility.cpp: mm_GetCommandArgument"]}
{"id": "C54", "title": "Generated hook managers are reference counted", "statement": "MakeHookMan for the same prototype and vtable position returns the same manager until it has been released as many times as it was requested; a manager is destroyed exactly when its count reaches zero, and releasing an unknown manager does nothing.", "quantifier": "every history of MakeHookMan/ReleaseHookMan", "why_tests_cant": "all histories", "anchors": ["core/sourcehook/sourcehook_hookmangen.cpp: MakeHookMan, ReleaseHookMan"]}
{"id": "C55", "title": "Code buffer appends", "statement": "The code-generation buffer after any sequence of writes contains exactly the concatenation of the written little-endian encodings, growth never loses bytes, and rewriting at an offset changes exactly those bytes.", "quantifier": "all write sequences", "why_tests_cant": "all sizes and growth points", "anchors": ["core/sourcehook/sh_asm.h: GenBuffer"]}
{"id": "C56", "title": "File name extension", "statement": "The extension lookup returns exactly the text after the last dot of the last path component (a dot in last position does not count), and nothing iff there is none; it reads only inside the string.", "quantifier": "all strings", "why_tests_cant": "The claim ranges over all strings, including the empty string for which the loop index starts at -1.", "anchors": ["core/metamod_util.cpp: UTIL_GetExtension"]}
{"id": "C57", "title": "Full path of a plugin", "statement": "A relative plugin name becomes <mod path>/<name> with the platform suffix added exactly when the name has no extension (\".x64.so\" if that file exists, otherwise \".so\"), backslashes turned into slashes, cut to the buffer and always terminated; an absolute path is used unchanged.", "quantifier": "all names, mod paths, buffer sizes and file systems", "why_tests_cant": "The claim ranges over all strings and buffer sizes, including names with percent signs and the empty name.", "anchors": ["core/metamod.cpp: GetFullPluginPath"]}
{"id": "C58", "title": "Where a hooked function's result is returned", "statement": "The generator decides for every return type whether it is returned in registers or in memory: scalars by value in registers exactly up to 8 bytes, references in registers, objects as the user says and otherwise by the rule of the compiler (32-bit gcc/MSVC: memory; macOS: registers exactly for sizes 1, 2, 4, 8; 64-bit MSVC: registers exactly for sizes 1, 2, 4, 8 without constructor or destructor); nothing else in the description changes.", "quantifier": "all pass descriptions and builds", "why_tests_cant": "Ranges over all sizes and flag combinations, and over builds that one test run cannot exercise together.", "anchors": ["core/sourcehook/sourcehook_hookmangen_x86.cpp: AutoDetectRetType", "core/sourcehook/sourcehook_hookmangen_x86_64.cpp: AutoDetectRetType"]}
{"id": "C59", "title": "A generated manager describes itself truthfully", "statement": "The prototype description that a generated hook manager reports is read back by SourceHook as exactly the prototype the code was generated for, and is compatible with the prototype that was requested.", "quantifier": "all prototypes and builds", "why_tests_cant": "Ranges over all prototypes.", "anchors": ["core/sourcehook/sourcehook_hookmangen_x86.cpp: BuildProtoInfo, AutoDetectParamFlags", "core/sourcehook/sourcehook_impl_cproto.cpp: Fill, operator=="]}
{"id": "C60", "title": "The 64-bit instruction writer writes what its methods say", "statement": "For every sequence of calls of the writer's methods, with every register, displacement and immediate value of the parameter types, the bytes written decode, according to the instruction set reference, to exactly the instructions the method names stand for, one after the other, whatever follows.", "quantifier": "all sequences of methods and all arguments", "why_tests_cant": "The encoding has special cases per register (rsp, rbp, r12, r13), displacement width and operand extension; tests sample a few of about 16*16*2^32 operand combinations per method.", "anchors": ["core/sourcehook/sh_asm_x86_64.h: x64JitWriter, x86_64_RegRm"]}
{"id": "C61", "title": "The generated public function does its job and keeps the calling convention", "statement": "The machine code generated as the public function of a 64-bit hook manager stores the given IHookManagerInfo if and only if asked to, calls its SetInfo exactly once with version, vtable offset, index, prototype and hook function if it is not NULL, with an aligned stack, returns 0 and preserves stack pointer and nonvolatile registers.", "quantifier": "all register and memory contents, all constants of the manager and all behaviours of SetInfo", "why_tests_cant": "Ranges over all machine states; a violated convention or a wrong patched jump shows only in particular callers.", "anchors": ["core/sourcehook/sourcehook_hookmangen_x86_64.cpp: GeneratePubFunc"]}
{"id": "C62", "title": "Console objects of a plugin are unregistered with it", "statement": "At every moment a plugin owns exactly the console variables and commands it has registered and not unregistered since (with multiplicity), whatever other plugins do; when it is unloaded, each of them is unregistered, and every listener of every other loaded plugin is told of each exactly once, under the id of the plugin, after its Unload callback and before the plugin's library is released.", "quantifier": "every reachable state, every sequence of registrations and every set of listeners", "why_tests_cant": "Depends on the history of registrations, on repeated registrations and on all other plugins and their listeners.", "anchors": ["core/metamod.cpp: RegisterConVar, UnregisterConVar, UnregisterConCommand", "core/metamod_plugins.cpp: AddPluginCvar, RemovePluginCvar, UnregAllConCmds, _Unload"]}
{"id": "C63", "title": "The generated hook function follows the hook protocol and keeps the calling convention", "statement": "The machine code generated as the hook function of a 64-bit hook manager behaves as the hook function of the macros: it sets up the hook loop with the addresses of its variables, calls every handler GetNext gives with the parameters it was called with and a result variable that is reset, remembers the highest result and the value of the last overriding handler, knows the previous handler's result, calls the original with the same parameters exactly if it is not superceded and ShouldCallOrig agrees, calls the post handlers, chooses the value to return by the highest result (an object in memory is copied to the address the caller passed, which is returned), calls EndContext, destroys by-value object parameters, and returns with stack pointer, return address and nonvolatile registers as they were; every call has an aligned stack and its argument area outside the function's frame.", "quantifier": "all prototypes, all register and memory contents at entry, all constants of the manager, all behaviours of the called functions (handlers, original, context) that keep the calling convention, all numbers of handlers", "why_tests_cant": "Ranges over all machine states, prototypes and behaviours of handlers; a clobbered register, a misplaced variable or a wrong jump distance shows only for particular prototypes and callers.", "anchors": ["core/sourcehook/sourcehook_hookmangen_x86_64.cpp: GenerateHookFunc, GenerateCallHooks, GenerateCallOrig, PushParameters, SaveReturnValue, PrepareReturn, DoReturn", "core/sourcehook/sh_asm_x86_64.h"]}
{"id": "C64", "title": "The console command does what its reply says to the plugin it names", "statement": "Each \"meta\" console command that names a plugin by number or file acts on exactly that plugin: pause, unpause, unload, force_unload and retry change or remove only its entry when they report success and nothing when they report failure; load reports whether a usable plugin with that path exists afterwards and which number it has, and touches no plugin with another path; a plugin can be unloaded by the name by which it was loaded; clear leaves no plugin; all other commands change nothing. meta list shows every plugin with its number in order in lines of at most 255 bytes without overrunning its arrays; the list for clients shows the running ones.", "quantifier": "every reachable state of the plugin manager, every environment (file system, libraries, plugin callbacks, texts) and all arguments", "why_tests_cant": "Depends on the history of loads, failures and pending unloads and on arbitrary answers of plugins; arguments are arbitrary texts.", "anchors": ["core/metamod_console.cpp: Command_Meta, Command_ClientMeta", "core/metamod_plugins.cpp: CPluginManager"]}
{"id": "C65", "title": "Patching a pointer makes its page writable and takes no right away", "statement": "MakePageWritable reads the rights of the page from /proc/self/maps; if it reports success the aligned pointer can be written, no page has lost a right and no other page has changed; SetMemAccess affects exactly the pages of the given bytes. When a hook slot is restored, the original value is written exactly if the slot is still mapped, and the write never faults.", "quantifier": "all memory layouts and texts of /proc/self/maps that describe them, all addresses of aligned pointers, 32 and 64 bits", "why_tests_cant": "Depends on the layout of the address space and on neighbouring pages; a lost right shows as a crash elsewhere.", "anchors": ["core/sourcehook/sh_memory.h: GetPageBits, SetMemAccess, MakePageWritable, ModuleInMemory", "core/sourcehook/sourcehook_impl_cvfnptr.cpp: Patch, Revert"]}
{"id": "C66", "title": "The slot that is hooked is the slot that calls use", "statement": "For every object, memory and pointer to a virtual member function, the vtable slot SH_ADD_HOOK patches is the slot from which a call through that pointer reads its target, the hook is filed under the this pointer that call passes, the hook function finds the same slot again, SH_CALL ignores the hooks of that slot, and handlers get the object back as META_IFACEPTR; pointers for which this would not hold are refused.", "quantifier": "all memories, objects, member function pointers, vtable indices and adjustments; GCC and MSVC, 32 and 64 bits", "why_tests_cant": "The result depends on compiler-generated representations and machine code (thunks, jump distances, inheritance kinds); tests run on one compiler with a few classes.", "anchors": ["core/sourcehook/sh_memfuncinfo.h: MFI_Impl, MFI_GetVtblOffset", "core/sourcehook/sourcehook.h: SHINT_MAKE_GENERICSTUFF_END, SH__CALL_GET_VFNPTR_NORMAL, SH_SETUP_MFP", "core/sourcehook/sourcehook.cpp: CSourceHookImpl::AddHook"]}
{"id": "C67", "title": "The 32-bit instruction writer writes what its functions say", "statement": "For every sequence of calls of the IA32_* functions, with every register, mode, scale, displacement and immediate value that the function's name allows, the bytes written decode, according to the instruction set reference, to exactly the instructions the names stand for, one after the other, whatever follows.", "quantifier": "all sequences of functions and all arguments", "why_tests_cant": "180 functions with special cases per register (ESP, EBP), mode and displacement width, and 2^32 displacements and immediates each; a wrong length shifts the meaning of everything behind it.", "anchors": ["core/sourcehook/sourcehook_hookmangen_x86.h: ia32_modrm, ia32_sib, IA32_*"]}
{"id": "C68", "title": "The generated 32-bit public function does its job and keeps the calling convention", "statement": "The machine code generated as the public function of a 32-bit hook manager, for GCC and for MSVC, stores the given IHookManagerInfo if and only if asked to, calls its SetInfo exactly once with version, vtable offset, index, prototype and hook function if it is not NULL, passing the object the way that compiler's member functions take it and with the caller's stack alignment, returns 0 and preserves stack pointer, return address and the registers ebx, ebp, esi and edi.", "quantifier": "both compilers, all register and memory contents, all constants of the manager and all behaviours of SetInfo", "why_tests_cant": "Ranges over all machine states; a violated convention or a wrong patched jump shows only in particular callers.", "anchors": ["core/sourcehook/sourcehook_hookmangen_x86.cpp: GeneratePubFunc"]}
{"id": "C69", "title": "The generated 32-bit hook function follows the protocol of the hook macros", "statement": "The machine code generated as hook function of a 32-bit hook manager, for GCC and for MSVC, behaves like the hook function of the macros: it formats variable arguments, calls SetupHookLoop, then every handler GetNext gives (with the parameters of the caller), keeps prev, cur and status as the protocol says, stores the results of overriding handlers, calls the original function exactly if the status is not SUPERCEDE and ShouldCallOrig says so, runs the post hooks, calls EndContext, destroys the parameters it has to destroy and returns the override or original result, with the calling convention of the compiler kept towards the caller and towards every called function.", "quantifier": "both compilers, all prototypes, all register and memory contents, all behaviours of the called functions", "why_tests_cant": "The code is different for every prototype and compiler; wrong stack cleanup, alignment, frame layout or patched jumps show only in particular prototypes, and the runs depend on arbitrary behaviour of the called functions.", "anchors": ["core/sourcehook/sourcehook_hookmangen_x86.cpp: GenerateHookFunc, GenerateCallHooks, GenerateCallOrig, CallSetupHookLoop, PushParams, SaveRetVal, ProcessPluginRetVal, PrepareReturn, DoReturn, CallEndContext"]}
{"id": "C70", "title": "The server plugin serves the engine that loads it, once, with the core library open exactly as long", "statement": "When the loader is loaded as a server plugin: after Load succeeded, each function the engine calls through the interface of its branch is in the slot where that branch has it; Load does nothing unless the callbacks were requested since the last Load, passes on the version of that request (at most 2), and succeeds at most once; without a game library the core library is open exactly from a successful Load to Unload, every failure having closed what it opened; beside a game library no library is opened or closed; and no call runs into a library that is closed.", "quantifier": "all sequences of calls by the engine, all engines, all failures of the operating system and of the core", "why_tests_cant": "The table is edited in place for each of 28 engines and the state survives failed loads, so what matters is sequences of calls and failures that no test machine shows.", "anchors": ["loader/serverplugin.cpp: ServerPlugin::Load, Unload, GetPluginDescription, mm_GetVspCallbacks", "loader/loader.cpp: CreateInterface, mm_LoadMetamodLibrary, mm_UnloadMetamodLibrary", "core/vsp_bridge.cpp: VspBridge::Load"]}
{"id": "C71", "title": "Plugins are loaded once at the start and again at later level ends; the listener is asked for once", "statement": "Loaded as game library, the initial plugin loads happen exactly once and before every other load and before AllPluginsLoaded, which is called exactly once; loaded as server plugin, the same is done by whichever of OnGameInit and OnLevelShutdown comes first. Every end of a level except the first loads plugins again. The command that loads the server plugin listener is sent at most once, only after a plugin requested it and the game started, and has been sent when both have happened unless the listener is there; it is never sent when Metamod runs as server plugin. GetVSPInfo gives what was last announced.", "quantifier": "all sequences of engine callbacks in both ways of loading, all choices of plugins about when to call EnableVSPListener", "why_tests_cant": "Six flags interact over the whole run of a server, and plugin code runs in the middle of the functions that change them.", "anchors": ["core/metamod.cpp: mm_StartupMetamod, OnGameInit, OnLevelShutdown, EnableVSPListener, NotifyVSPListening, InitializeVSP", "core/gamedll_bridge.cpp: DLLInit_Pre, DLLInit_Post", "core/vsp_bridge.cpp: VspBridge::Load", "core/metamod_plugins.cpp: SetAllLoaded"]}
{"id": "C72", "title": "What is logged appears once, as one line, in the log and on the console", "statement": "Each message passed to mm_LogMessage is written as its text followed by a newline to the log (to stdout if there is no engine) and to the console; messages logged by code that runs because of a message being written are dropped; no access leaves the buffer.", "quantifier": "all sequences of messages, all texts and lengths, all nestings caused by plugins, all failures of formatting", "why_tests_cant": "The cases that matter are lengths at the limit of the buffer and plugins logging from inside the engine's print functions.", "anchors": ["core/metamod.cpp: mm_LogMessage, SaveAndSet", "core/provider/provider_base.cpp: BaseProvider::LogMessage"]}
{"id": "C73", "title": "The core is told of each game start, level start and level end exactly once", "statement": "After the start of a provider, every registration of a game loop mode factory (Source 1: GameInit) is announced as the start of the game, every start and stop of a loop mode made by such a factory (Source 1: LevelInit, LevelShutdown) is announced exactly once and in order, those of other modes never; a client's meta command goes to Metamod only and any other command to the game only; when all game factories have been unregistered the shutdown leaves no hooks.", "quantifier": "all sequences of registrations, creations, starts, stops, destructions and client commands a sensible engine can make, all objects", "why_tests_cant": "Loop modes and factories come and go at addresses that are reused; a test sees one order of events.", "anchors": ["core/provider/source2/provider_source2.cpp: Hook_RegisterLoopMode, Hook_UnregisterLoopMode, Hook_CreateLoopModePost, Hook_DestroyLoopMode, Hook_LoopInitPost, Hook_LoopShutdownPost, Hook_ClientCommand", "core/provider/source/provider_source.cpp: Hook_GameInit, Hook_LevelInit, Hook_LevelShutdown, Hook_ClientCommand"]}
{"id": "C74", "title": "A missing interface is reported and does no harm", "statement": "If the engine does not offer an interface a provider needs, a message is shown and the start neither uses the missing interface nor fails otherwise; the shutdown of a provider removes the hooks of its start.", "quantifier": "all combinations of interfaces found and missing, both providers", "why_tests_cant": "The engines at hand offer all interfaces; the other cases appear when an interface gets a new version.", "anchors": ["core/provider/source2/provider_source2.cpp: Notify_DLLInit_Pre, Notify_DLLShutdown_Pre, GetGamePath", "core/provider/source/provider_source.cpp: Notify_DLLInit_Pre, Notify_DLLShutdown_Pre, GetGamePath", "core/gamedll_bridge.cpp: DLLInit_Pre"]}
{"id": "C75", "title": "User messages are numbered as the game numbers them, and Error is left as it was", "statement": "After CacheUserMessages the list holds the game's messages at their numbers, whether the game says no or calls Error at the end, and every byte of memory is as before; FindUserMessage gives the first number of a name or -1, GetUserMessage gives name and size of every valid number and nothing for others, and the two are inverse to each other.", "quantifier": "all lists of messages, both ways for the game to end, all addresses of the two functions, all names and numbers", "why_tests_cant": "Depends on where the libraries are loaded and on which engine calls Error; a test runs with one address layout.", "anchors": ["core/provider/source/provider_source.cpp: Detour_Error, CacheUserMessages, GetUserMessageCount, FindUserMessage, GetUserMessage"]}
{"id": "C76", "title": "Plugins are looked for where the configuration says", "statement": "In every session the first load of plugins uses the files named on the command line, else in the variables, else the defaults; every later load (end of a level, meta refresh) uses the variables, and an empty or missing variable means the default; nothing undefined happens.", "quantifier": "all command lines, both engines, both ways to be loaded, all sequences of level ends, refreshes and changes of the variables", "why_tests_cant": "Several sources of configuration and moments of loading; the failing combinations are rare settings.", "anchors": ["core/metamod.cpp: DoInitialPluginLoads, mm_StartupMetamod, OnGameInit, OnLevelShutdown, GetPluginsFile, GetVDFDir", "core/metamod_console.cpp: meta refresh", "core/provider/source/provider_source.cpp: GetCommandLineValue, GetConVarString", "core/provider/source2/provider_source2.cpp: GetCommandLineValue, GetConVarString"]}
{"id": "C77", "title": "Only Metamod's directories are taken out of the search paths", "statement": "After the start of the Source 2 provider the thirteen lists of search paths hold exactly the directories that do not mention metamod, in their order; other lists are unchanged; the default write path is the first game directory left; doing it again changes nothing.", "quantifier": "all contents of all lists, including duplicates, both meanings of RemoveSearchPath", "why_tests_cant": "Directories are removed from a list while a copy is walked; what is affected depends on where the server is installed.", "anchors": ["core/provider/source2/provider_source2.cpp: Notify_DLLInit_Pre"]}
{"id": "C78", "title": "A Source 2 game starts and stops behind the loader as without it", "statement": "For every engine that asks for the two interfaces, connects, initializes and disconnects in order: the game's Connect, Init and Disconnect are each called exactly once, through the entries the game had; the core is started before the game's Init with the factory given to Connect and stopped before the game's Disconnect; all entries of the tables are the game's own again except that of Disconnect while the core runs; the first question for dedicated servers on Windows does not reach the game; without -dedicated or -insecure nothing is loaded; and no step is undefined.", "quantifier": "all names asked for, all sets of libraries, all failures, all changes which the game and plugins make to the tables, all layouts of the tables in memory", "why_tests_cant": "Combinations of failures; where the linker places a table decides whether a page is protected.", "anchors": ["loader/gamedll.cpp: ISource2ServerConfig, ISource2Server, mm_PatchConnect, mm_PatchDllInit, mm_PatchDllShutdown, mm_PatchAllowDedicated, mm_GameDllRequest", "loader/loader.cpp: CreateInterface", "core/gamedll_bridge.cpp: DLLInit_Post"]}
{"id": "C79", "title": "Loading plugins visits exactly the listed ones, keeps the loaded ones, and reports true numbers", "statement": "For every plugin list, directory and set of libraries: the plugins of the list and then those of exactly the files with extension vdf (in any case) are requested in order, the VDF files opened relative to the game directory; each sets its alias and is loaded from its path; plugins that are loaded stay loaded with id, file and status; 'Loaded N plugins (M already loaded)' gives as N how many more plugins are loaded than before and as M how many requests named a loaded plugin; and no step is undefined.", "quantifier": "all plugin lists, directory contents, VDF contents, library behaviours, reachable states of the plugin manager", "why_tests_cant": "Order of directory entries, contents and failures combine; the state of the manager before matters.", "anchors": ["core/metamod.cpp: LoadPluginsFromFile, ProcessVDF, LoadVDFPluginsFromDir, mm_LoadPlugins", "core/provider/source/provider_source.cpp: ProcessVDF", "core/provider/source2/provider_source2.cpp: ProcessVDF"]}
{"id": "C80", "title": "Delegates are values: a copy calls what the original called, and equality means the same call", "statement": "For every program that creates, binds, copies, assigns, clears and stores delegates: calling a delegate calls the function, or the method on the object, that it was last given; two delegates are equal if and only if they make the same call; < is a strict order that agrees with equality; a delegate is empty if and only if nothing is bound; a delegate is equal to a function if and only if it is bound to it.", "quantifier": "all programs over delegates and mementos, functions, objects, pointers to members of GCC and MSVC (32 and 64 bits), and memory contents", "why_tests_cant": "The representation depends on compiler, inheritance and sequence of copies.", "anchors": ["core/sourcehook/FastDelegate.h: DelegateMemento, SimplifyMemFunc, ClosurePtr, FastDelegate", "core/sourcehook/sourcehook.h: CMyDelegateImpl::IsEqual"]}
{"id": "C81", "title": "The console holds exactly what is registered; a plugin's commands and variables go when it goes", "statement": "For every history of registrations by the engine, Metamod and plugins, of loads, refusals and unloads, in which nothing is registered while it is registered and nobody unregisters another plugin's things: following the engine's list ends and gives exactly the things registered and not taken away, newest first. Unloading a plugin, or its refusing to load, removes all of its things and nothing else, and leaves the others in order.", "quantifier": "all histories (any number of plugins, commands and variables, in any order), both kinds of engine", "why_tests_cant": "The linked list is changed by hand, in the middle of other owners' objects; every position and order of removal matters.", "anchors": ["core/provider/source/provider_source_console.cpp: Register, Unregister, RemoveMetamodCommands", "core/metamod_plugins.cpp: AddPluginCmd, AddPluginCvar, RemovePluginCmd, RemovePluginCvar, UnregAllConCmds, _Load, _Unload", "core/metamod.cpp: RegisterConCommandBase, UnregisterConCommandBase"]}
{"id": "C82", "title": "Mistakes with the console do no harm to others", "statement": "Registering something twice leaves the engine's list intact; if Metamod says it found the list then it can take things out; a plugin cannot make another's things vanish; whatever a plugin registers goes when the plugin goes.", "quantifier": "all histories, all results of the search for the list", "why_tests_cant": "The damage shows later and elsewhere: in a loop of the engine or in a call into a closed library.", "anchors": ["core/provider/source/provider_source_console.cpp: Register, InitConCommandBaseList", "core/metamod.cpp: UnregisterConCommand, UnregisterConVar", "core/metamod_plugins.cpp: FindByAPI, AddPluginCmd"]}
{"id": "C83", "title": "Metamod has the engine load Metamod's own file", "statement": "When Metamod was started as the game's library and is not yet a server plugin, the command it gives is one line plugin_load with one argument, and that argument, taken from the directory of the engine's library, is Metamod's own file; whenever the directory cannot be found the absolute path is used. When it is already a plugin no command is given.", "quantifier": "all paths of engine and Metamod, all results of abspath and PathExists, all sizes of buffers", "why_tests_cant": "Depends on where engine and Metamod are installed and on the operating system's answers.", "anchors": ["core/metamod.cpp: InitializeVSP", "core/metamod_util.cpp: UTIL_Relatize, UTIL_Relatize2"]}
{"id": "C84", "title": "A prototype built call by call is the prototype SourceHook reads", "statement": "For every sequence of SetReturnType, AddParam and conversions: the ProtoInfo pointer obtained at the end shows the calling convention, the last return type and all parameters in the order of the calls, and CProto::Fill reads exactly those; flags tell which of the four functions are given and are otherwise as passed. A pointer obtained earlier stays good.", "quantifier": "all sequences of calls, all sizes, types, flags and functions, all allocators", "why_tests_cant": "Vectors move when they grow; every number of parameters and place of conversion matters.", "anchors": ["core/sourcehook/sourcehook_pibuilder.h: CProtoInfoBuilder", "core/sourcehook/sourcehook_impl_cproto.cpp: CProto::Fill", "core/sourcehook/sh_vector.h: push_back"]}
{"id": "C85", "title": "A text is looked for in a library exactly where the library is mapped", "statement": "For a library loaded by the dynamic linker, the ranges searched are exactly the pages of its readable segments (on Windows and macOS: its image); the search reads no byte that is not mapped, ends, and returns the first place where the pattern matches, or nothing if there is none. A file of another kind or for another processor is turned down from its header.", "quantifier": "all libraries (headers, segments, addresses, page sizes, 32 and 64 bits, three formats), all contents of memory, all patterns", "why_tests_cant": "Ranges over all layouts of libraries; a wrong offset, rounding or bias reads unmapped memory only for particular libraries.", "anchors": ["loader/utility.cpp: mm_GetLibraryInfo, mm_FindPattern"]}
{"id": "C86", "title": "A VDF file is read whole and everything used for it is given back", "statement": "Reading a plugin's VDF file, the provider gives the engine's parser exactly the bytes of the file (up to the first NUL), tells the file and alias the parser finds and fails without them; whatever the file system and the parser answer, it touches nothing that is not there, closes the file, frees the scratch memory and deletes the KeyValues object exactly once, after its last use.", "quantifier": "all files, sizes, answers of the file system and the parser, contents of memory, both providers", "why_tests_cant": "Leaks, double frees and uses after free on error paths, and stale memory behind a short read, do not show in the output of a test.", "anchors": ["core/provider/source/provider_source.cpp: ProcessVDF, KVLoadFromFile", "core/provider/source2/provider_source2.cpp: ProcessVDF"]}
{"id": "C87", "title": "On Source 2 a plugin's console commands and variables go off with the plugin and come back with it", "statement": "After any calls of plugins and the engine, each console command is in the search or not, works or not, and has the flags it was made with, and each variable is usable or not, exactly as the calls say; unloading a plugin or refusing it turns off all it still has registered and nothing else; a plugin loaded anew gets its command back; nothing that is not there is touched; Metamod:Source's own variables have the flags asked for and are deleted once.", "quantifier": "all sequences of registering, unregistering, loading, refusing and unloading by any number of plugins, all flags and handles", "why_tests_cant": "Needs all interleavings of plugins and a Source 2 engine, whose commands cannot be removed but only hidden; a test sees one order.", "anchors": ["core/provider/source2/provider_source2.cpp:291-354", "core/provider/source2/provider_source2.cpp:152-157", "core/metamod.cpp:920-966", "core/metamod_plugins.cpp:804-866"]}
{"id": "C88", "title": "Listeners hear of a console object that goes, before it goes, in the way they know", "statement": "When a console command or variable is unregistered, each listener of each loaded plugin with API version 12 or later is told once before the object goes, by OnUnlinkConCommandBase below version 17 and by the new callbacks from 17 on, under the id of the plugin that owned it; when a plugin is unloaded or refused, everything it has registered goes as often as registered and its own listeners are told nothing.", "quantifier": "all plugin lists with any statuses, versions, listeners and registrations", "why_tests_cant": "Depends on all combinations of statuses, versions and listeners of all loaded plugins and on repeated registrations.", "anchors": ["core/metamod.cpp:948-1049", "core/metamod_plugins.cpp:617-646", "core/metamod_plugins.cpp:852-866"]}
{"id": "C89", "title": "A plugin is told the truth about engine, game and place when it is created", "statement": "Each plugin's CreateInterface_MMS is called first with the engine that is running, the game's folder name and the plugin's own file and folder; the two older engine names are tried, in order, only on Valve's games and only as long as the plugin answers nothing; the next plugin again hears the true engine; no memory outside of the path array is touched.", "quantifier": "all lists of plugins with any files and any answers, all game paths and builds", "why_tests_cant": "Depends on the lengths and separators of all paths and on the order in which plugins that refuse are loaded, since the version structure is shared by all of them.", "anchors": ["core/metamod_plugins.cpp:471-528", "core/metamod.cpp:771-787", "core/metamod_util.cpp:178-189", "core/metamod_oslink.h:49-78"]}
